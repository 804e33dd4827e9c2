(** The files while a user works with the list. *)
From Coq Require Import String Permutation.
From Verif Require Import Base QtStr Diff Save Parser SpecHistory SpecPatch SpecParse SpecText SpecUnified Blend SpecBlend SpecWorkflow Info ModelList SpecList World SpecWorld
  PHistory PropsText PEditLines PUnifiedDoc PBlend PSave PropsBlend PWorkflow PModelState PList PKin.
From Verif Require PLevTable.
Local Open Scope Z_scope.

(** * The text that a save writes *)
Definition same_context (hs : list filled) : Prop := Forall (fun d => is_context d = true -> lines_of (d_slines d) = lines_of (d_dlines d)) (all_diffs hs).
Lemma choose_kept' ds : Forall (fun d => is_context d = true -> lines_of (d_slines d) = lines_of (d_dlines d)) ds ->
  choose (map d_applied (filter (fun d => negb (is_context d)) ds)) ds = concat (map kept ds).
Proof.
  induction 1 as [|d ds P _ IH]; [reflexivity|]. cbn [filter choose map concat].
  destruct (is_context d) eqn:C; cbn [negb map]; rewrite IH; [|reflexivity]. unfold kept at 2. rewrite (P eq_refl). now destruct (d_applied d).
Qed.
Lemma kin_deref st st' l : Forall2 similar st st' -> forall ds, deref_all st l = Ok ds -> exists ds', deref_all st' l = Ok ds' /\ Forall2 similar ds ds'.
Proof.
  intros F. induction l as [|i l IH]; intros ds H; cbn in H; [injection H as <-; exists []; split; [reflexivity|constructor]|]. step H. step H. injection H as <-. apply deref_inv in E.
  destruct (Forall2_nth_l _ _ _ F _ _ E) as (d' & N & S). destruct (IH a0 eq_refl) as (ds' & D & S'). exists (d' :: ds'). split; [|constructor; auto]. cbn. unfold deref. rewrite N. cbn [bind]. now rewrite D.
Qed.
Lemma kin_hunks st st' hs : Forall2 similar st st' -> resolved st hs ->
  exists hs', resolved st' hs' /\ map fst hs' = map fst hs /\ Forall2 similar (all_diffs hs) (all_diffs hs') /\ concat (map listed_of hs') = concat (map listed_of hs).
Proof.
  intros F. unfold all_diffs. induction 1 as [|[h ds] hs R _ IH]; [exists []; repeat split; constructor|]. destruct IH as (hs' & R' & M & S & L). cbn [fst snd] in R.
  destruct (kin_deref _ _ _ F _ R) as (ds' & D & S'). exists ((h, ds') :: hs'). split; [constructor; auto|]. split; [cbn; congruence|]. split; [cbn; now apply Forall2_app|].
  cbn [map concat]. rewrite L. f_equal. unfold listed_of. cbn [fst snd]. clear -S'. generalize (h_diffs h). induction S' as [|d d' ds ds' S _ IH]; intros [|i l]; try reflexivity.
  cbn [combine filter snd]. rewrite (similar_context _ _ S). destruct (is_context d); cbn [negb map fst]; now rewrite IH.
Qed.
Lemma kin_saved x y hs now saved : links x hs -> same_context hs -> kin x y -> model_state y now saved ->
  saved_lines (dm_store y) (dm_hunks y) = Ok (choose now (all_diffs hs)).
Proof.
  intros [L1 L2 L3 L4 L5 L6] C [_ KH KD KS] M. destruct (kin_hunks _ _ _ KS L2) as (hs' & R & MF & S & LI).
  rewrite KH, L1, <- MF, (saved_lines_kept _ _ R). f_equal. destruct M as [_ _ (ds & LD & A & _) _ _ _]. unfold listed in LD. rewrite KD, L5, <- LI, (deref_listed _ _ R) in LD. injection LD as LD.
  rewrite <- (choose_alike now _ _ S), <- A, <- LD. symmetry. apply choose_kept'. unfold same_context in C. clear -C S.
  induction S as [|d d' ds ds' (t & a & u & ->) _ IH]; [constructor|]. inversion_clear C as [|? ? C1 C2]. constructor; auto.
Qed.
(** Every model that the list can hold when x was opened writes the text [T] for its state. *)
Definition writes (x : dmodel) (T : list bool -> str) : Prop :=
  forall y now saved, kin x y -> model_state y now saved -> exists ls, saved_lines (dm_store y) (dm_hunks y) = Ok ls /\ concat_str ls = T now.
Lemma links_write x hs : links x hs -> same_context hs -> writes x (fun now => concat (choose now (all_diffs hs))).
Proof. intros L C y now saved K M. eexists. split; [eapply kin_saved; eauto|]. reflexivity. Qed.
Lemma save_text e x T y now saved : writes x T -> kin x y -> model_state y now saved ->
  exists o, save_destination e y = Ok o /\ so_written o = (if (unsaved_flags (now, saved) && save_succeeds e)%bool then Some (T now) else None).
Proof.
  intros W K M. destruct (W y now saved K M) as (ls & SL & TX). pose proof M as [(hs & LK) _ _ _ _ _]. destruct (C37_save_outcome e y hs LK) as (u & o & U & E & O1 & O2 & O3).
  rewrite (unsaved_iff _ _ _ M) in U. injection U as <-. exists o. split; [exact E|]. destruct (unsaved_flags (now, saved)); cbn [andb]; [|now rewrite O1].
  destruct (save_succeeds e); [|now apply O2]. destruct (O3 eq_refl eq_refl) as (_ & _ & Q & _). rewrite Q. f_equal. destruct LK as [L1 L2 _ _ _ _].
  rewrite L1, (saved_lines_kept _ _ L2) in SL. injection SL as <-. exact TX.
Qed.

(** * The invariant *)
(** A file: the model as it was opened, the text for a state, and the url. *)
Record entry := mk_entry { en_model : dmodel; en_text : list bool -> str; en_url : str }.
Definition untouched (es : list entry) (f f' : files) : Prop := forall u, ~ In u (map en_url es) -> f' u = f u.
Definition stored (f : files) (e : entry) (saved : list bool) : Prop := text_at f (en_url e) = en_text e saved.
Record kept_up (i : info) (es : list entry) (s : mlist) (f : files) (v : view) : Prop := {
  ku_shows : shows s v;
  ku_info : ml_info s = Some i;
  ku_models : forall l k m, ml_models s = Some l -> nth_error l k = Some m ->
    exists e x, nth_error es k = Some e /\ model_of s m = Ok x /\ kin (en_model e) x;
  ku_length : length es = length (v_flags v);
  ku_disk : Forall2 (fun e fl => stored f e (snd fl)) es (v_flags v) }.
Record entries_ok (i : info) (es : list entry) : Prop := {
  eo_writes : Forall (fun e => writes (en_model e) (en_text e)) es;
  eo_urls : Forall (fun e => forall x, kin (en_model e) x -> save_target i x = en_url e) es;
  eo_nodup : NoDup (map en_url es) }.
Lemma text_put f u t : text_at (put_file f u t) u = t.
Proof. unfold text_at, put_file. destruct (str_eqb u u) eqn:E; [reflexivity|]. exfalso. assert (str_eqb u u = true) by (now apply PLevTable.str_eqb_ok). congruence. Qed.
Lemma file_other f u t u' : u <> u' -> put_file f u t u' = f u'.
Proof. intros N. unfold put_file. destruct (str_eqb u u') eqn:E; [|reflexivity]. apply PLevTable.str_eqb_ok in E. congruence. Qed.
Lemma text_other f u t u' : u <> u' -> text_at (put_file f u t) u' = text_at f u'.
Proof. intros N. unfold text_at. now rewrite file_other. Qed.
(** One save of one model. *)
Lemma one_save i es e k en x fl f : entries_ok i es -> nth_error es k = Some en -> kin (en_model en) x -> model_state x (fst fl) (snd fl) -> stored f en (snd fl) ->
  exists o, save_destination e x = Ok o /\ stored (copied i x o f) en (snd (after_save e fl)) /\
    (forall u, u <> en_url en -> copied i x o f u = f u).
Proof.
  intros [W U _] N K M ST. rewrite Forall_forall in W, U. apply nth_error_In in N. destruct (save_text e _ _ _ _ _ (W _ N) K M) as (o & E & WR). exists o. split; [exact E|].
  unfold copied, after_save, stored. rewrite WR, (U _ N x K). cbn [snd]. destruct fl as [now saved]. cbn [fst snd] in *. destruct (unsaved_flags (now, saved)) eqn:UF; cbn [andb].
  - destruct (save_succeeds e); [|auto]. split; [apply text_put|]. intros u NE. apply file_other. congruence.
  - assert (now = saved) by (apply unsaved_same; [apply M|exact UF]). subst. destruct (save_succeeds e); auto.
Qed.
Lemma urls_other es k k' a b : NoDup (map en_url es) -> nth_error es k = Some a -> nth_error es k' = Some b -> k <> k' -> en_url b <> en_url a.
Proof.
  intros ND A B NE E. apply NE. eapply NoDup_nth_error; [exact ND| |rewrite !nth_error_map, A, B; cbn; congruence]. apply nth_some_lt in A. now rewrite map_length.
Qed.
Lemma disk_at f f' es fls k en (fl : list bool * list bool) : Forall2 (fun e (fl : list bool * list bool) => stored f e (snd fl)) es fls -> NoDup (map en_url es) -> nth_error es k = Some en ->
  stored f' en (snd fl) -> (forall u, u <> en_url en -> f' u = f u) -> Forall2 (fun e fl => stored f' e (snd fl)) es (update fls k fl).
Proof.
  intros F ND N ST O. revert k N. induction F as [|e g es fls S F IH]; intros k N; [destruct k; discriminate|]. cbn [map] in ND. inversion ND as [|? ? NI ND']; subst. destruct k as [|k]; cbn in N |- *.
  - injection N as <-. constructor; [exact ST|]. clear IH. assert (Q : forall e', In e' es -> en_url e' <> en_url e) by (intros e' I E; apply NI; rewrite <- E; now apply in_map).
    clear -F Q O. induction F as [|e' g es fls S F IH]; constructor; [|apply IH; intros; apply Q; now right]. unfold stored, text_at in *. rewrite O by (apply Q; now left). exact S.
  - constructor; [|apply IH; auto]. unfold stored, text_at in *. rewrite O; [exact S|]. intros E. apply NI. rewrite E. apply in_map. eapply nth_error_In. exact N.
Qed.
Lemma env_in_same i e : se_dirs e = mode_eqb (in_mode i) ComparingDirs -> env_in i e = e.
Proof. intros E. unfold env_in. rewrite <- E. now destruct e. Qed.
Lemma flags_saved i s f v es v' : kept_up i es s f v -> length (v_flags v') = length (v_flags v) -> (forall k, saved_of v' k = saved_of v k) ->
  Forall2 (fun e fl => stored f e (snd fl)) es (v_flags v').
Proof.
  intros [_ _ _ _ D] L S. assert (X : map snd (v_flags v') = map snd (v_flags v)).
  { unfold saved_of in S. revert L S. generalize (v_flags v), (v_flags v'). induction l as [|a l IH]; intros [|b l'] L S; cbn in L; try lia; [reflexivity|]. cbn. f_equal; [exact (S 0%nat)|]. apply IH; [lia|]. intros k. exact (S (Datatypes.S k)). }
  clear S. revert X. generalize (v_flags v'). clear L. induction D as [|e fl es fls ST D IH]; intros [|b l'] X; cbn in X; try discriminate; constructor; [|apply IH; congruence]. injection X as X1 _. rewrite X1. exact ST.
Qed.
Definition saves (o : lop) : bool := match o with LSave _ | LSaveAll _ => true | _ => false end.
Lemma nth_update_fst {A} (l : list A) k k' x : nth_error (update l k x) k' = match nth_error l k' with None => None | Some y => Some (if Nat.eqb k k' then x else y) end.
Proof.
  revert k k'. induction l as [|a l IH]; intros [|k] [|k']; cbn; try reflexivity; [now destruct (nth_error l k')|]. apply IH.
Qed.
Lemma set_now_saved v n k : saved_of (set_now v n) k = saved_of v k /\ length (v_flags (set_now v n)) = length (v_flags v).
Proof.
  unfold set_now, saved_of at 1, with_flags. cbn [v_flags]. rewrite nth_update_fst, update_length. split; [|reflexivity]. unfold saved_of.
  destruct (nth_error (v_flags v) k) as [fl|] eqn:E; [|reflexivity]. destruct (Nat.eqb_spec (v_model v) k) as [<-|_]; [|reflexivity]. cbn [snd]. now rewrite E.
Qed.
Lemma next_flags v : v_flags (next_pos v) = v_flags v. Proof. unfold next_pos. destruct (Nat.ltb _ _); [reflexivity|]. destruct (Nat.ltb _ _); reflexivity. Qed.
Lemma previous_flags v : v_flags (previous_pos v) = v_flags v. Proof. unfold previous_pos. destruct (v_diff v); [|reflexivity]. destruct (v_model v); reflexivity. Qed.
Lemma step_saved o v v' : saves o = false -> vstep v o = Some v' -> length (v_flags v') = length (v_flags v) /\ forall k, saved_of v' k = saved_of v k.
Proof.
  intros NS V. assert (Q : forall v1 v2, v_flags v2 = v_flags v1 -> length (v_flags v2) = length (v_flags v1) /\ forall k, saved_of v2 k = saved_of v1 k) by (intros v1 v2 E; unfold saved_of; rewrite E; auto).
  assert (P : forall n v2, v_flags v2 = v_flags (set_now v n) -> length (v_flags v2) = length (v_flags v) /\ forall k, saved_of v2 k = saved_of v k).
  { intros n v2 E. destruct (Q _ _ E) as [Q1 Q2]. split; [rewrite Q1; apply (set_now_saved v n 0)|]. intros k. rewrite Q2. apply set_now_saved. }
  destruct o; cbn [saves vstep] in NS, V; try discriminate; try (injection V as <-); try (now apply Q); try (eapply P; reflexivity).
  - apply Q, next_flags.
  - apply Q, previous_flags.
  - destruct (Nat.ltb _ _); [|discriminate]. injection V as <-. now apply Q.
  - destruct (Nat.ltb _ _); [|discriminate]. injection V as <-. now apply Q.
  - eapply P. apply next_flags.
  - eapply P. apply previous_flags.
Qed.
Lemma models_kept i es s f v s' : kept_up i es s f v -> pres s s' -> forall l k m, ml_models s' = Some l -> nth_error l k = Some m ->
  exists e x, nth_error es k = Some e /\ model_of s' m = Ok x /\ kin (en_model e) x.
Proof.
  intros K (_ & M & P) l k m E N. rewrite M in E. destruct (ku_models _ _ _ _ _ K l k m E N) as (e & x & A & B & C). destruct (P m x B) as (y & Y & KY). exists e, y. split; [exact A|]. split; [exact Y|]. eapply kin_trans; eauto.
Qed.
(** saveAll. *)
Lemma save_models_files i envs es : entries_ok i es -> (forall k, se_dirs (envs k) = mode_eqb (in_mode i) ComparingDirs) ->
  forall l k s f es1 fls, incl es1 es -> NoDup (map en_url es1) -> NoDup l -> ml_info s = Some i ->
  Forall2 (fun m fl => exists x, model_of s m = Ok x /\ model_state x (fst fl) (snd fl)) l fls ->
  Forall2 (fun m e => exists x, model_of s m = Ok x /\ kin (en_model e) x) l es1 ->
  Forall2 (fun e fl => stored f e (snd fl)) es1 fls ->
  exists s' f' b, save_models_on envs k s f l = Ok (s', f', b) /\ save_models envs k s l = Ok (s', b) /\
    Forall2 (fun e fl => stored f' e (snd fl)) es1 (after_save_all envs k fls) /\ untouched es1 f f'.
Proof.
  intros EO HE. induction l as [|m l IH]; intros k s f es1 fls IN NU ND I F K D; inversion F as [|? fl ? fls' (x & E & M) F']; subst; inversion K as [|? e ? es' (x' & E' & KX) K']; subst; cbn [save_models_on save_models after_save_all].
  - exists s, f, true. repeat split; auto.
  - rewrite E in E'. injection E' as <-. inversion ND as [|? ? NI ND']; subst. cbn [map] in NU. inversion NU as [|? ? NIU NU']; subst. inversion D as [|? ? ? ? D1 D2]; subst.
    destruct (In_nth_error _ _ (IN e (or_introl eq_refl))) as [j J]. destruct (one_save i es (envs k) j e x fl f EO J KX M D1) as (o & EO' & ST & OT).
    destruct (ms_save (envs k) x _ _ M) as (o' & Eo' & MO & DO & SO & IO & RT & ER). rewrite EO' in Eo'. injection Eo' as <-.
    unfold save_model_on. rewrite E. cbn [bind]. unfold the_info. rewrite I. cbn [bind]. rewrite (env_in_same _ _ (HE k)). rewrite EO'. cbn [bind]. unfold save_model. rewrite E. cbn [bind]. rewrite EO'. cbn [bind fst snd].
    set (s1 := if so_error o then emit (Error SaveProblem) (put_model s m (so_model o)) else put_model s m (so_model o)).
    assert (H2 : forall m', m <> m' -> model_of s1 m' = model_of s m') by (intros m' NE; unfold s1; destruct (so_error o); rewrite ?model_emit; apply model_put_other; exact NE).
    assert (I1 : ml_info s1 = Some i) by (unfold s1; destruct (so_error o); exact I).
    assert (D3 : Forall2 (fun e fl => stored (copied i x o f) e (snd fl)) es' fls').
    { clear -D2 OT NIU. induction D2 as [|a b es fls S D IH]; constructor; [|apply IH; intros Q; apply NIU; now right]. unfold stored, text_at in *. rewrite OT; [exact S|]. intros Q. apply NIU. left. exact Q. }
    rewrite <- surjective_pairing in RT. rewrite RT. destruct (negb (unsaved_flags fl) || save_goes_on (envs k))%bool.
    + destruct (IH (S k) s1 (copied i x o f) es' fls') as (s' & f' & b & E1 & E2 & F2 & UT); auto.
      { intros a A. apply IN. now right. }
      { eapply Forall2_models; [|exact F']. intros m' IM. apply H2. intros ->. contradiction. }
      { clear -K' H2 NI. induction K' as [|m' e' l es (y & Y & KY) _ IH]; constructor; [|apply IH; intros Q; apply NI; now right]. exists y. rewrite H2; [auto|]. intros ->. apply NI. now left. }
      exists s', f', b. split; [exact E1|]. split; [exact E2|]. split; [constructor; [|exact F2]|].
      * unfold stored, text_at in *. rewrite UT; [exact ST|exact NIU].
      * intros u NU1. cbn [map] in NU1. rewrite UT by (intros Q; apply NU1; now right). apply OT. intros ->. apply NU1. now left.
    + exists s1, (copied i x o f), false. split; [reflexivity|]. split; [reflexivity|]. split; [constructor; [exact ST|exact D3]|]. intros u NU1. apply OT. intros ->. apply NU1. now left.
Qed.
Lemma models_entries i es s f v l : kept_up i es s f v -> ml_models s = Some l -> length l = length (v_flags v) -> Forall2 (fun m e => exists x, model_of s m = Ok x /\ kin (en_model e) x) l es.
Proof.
  intros K M L. pose proof (ku_length _ _ _ _ _ K) as LE. rewrite <- L in LE. pose proof (fun k m => ku_models _ _ _ _ _ K l k m M) as H. clear -H LE. revert es LE H.
  induction l as [|m l IH]; intros [|e es] LE H; cbn in LE; try lia; constructor.
  - destruct (H 0%nat m eq_refl) as (e' & x & A & B & C). injection A as <-. eauto.
  - apply IH; [lia|]. intros k m' N. destruct (H (S k) m' N) as (e' & x & A & B). exists e', x. auto.
Qed.
Lemma step_files i es s f v o v' : entries_ok i es -> kept_up i es s f v -> fits i o -> vstep v o = Some v' ->
  exists s' f', run_on s f o = Ok (s', f') /\ run_lop s o = Ok s' /\ kept_up i es s' f' v' /\ untouched es f f'.
Proof.
  intros EO K FI V. pose proof (ku_shows _ _ _ _ _ K) as SH. destruct (run_lop_ok s v o v' SH V) as (s' & E & (SH' & _ & _)). pose proof (pres_run _ _ _ E) as P.
  assert (I' : ml_info s' = Some i) by (rewrite (proj1 P); apply K).
  assert (Q : saves o = false -> exists s1 f', run_on s f o = Ok (s1, f') /\ run_lop s o = Ok s1 /\ kept_up i es s1 f' v' /\ untouched es f f').
  { intros NS. exists s', f. destruct (step_saved o v v' NS V) as [L S]. split; [destruct o; cbn [run_on]; try discriminate NS; rewrite E; reflexivity|]. split; [exact E|]. split; [|intros u _; reflexivity].
    split; [exact SH'|exact I'|eapply models_kept; eauto|rewrite L; apply K|eapply flags_saved; eauto]. }
  destruct o as [| | | |? ?|?|?|?| | |?|e|envs|?]; try (exact (Q eq_refl)); clear Q.
  - cbn [run_on fits] in *. cbn [vstep] in V. injection V as <-. destruct (shows_facts s v SH) as (l & m & x & d & fl & y & F). destruct (fa_at _ _ _ _ _ _ _ _ F) as (A1 & A2 & A3).
    unfold slot_save_on. rewrite A2. unfold the_info. rewrite (ku_info _ _ _ _ _ K). cbn [bind]. rewrite (env_in_same _ _ FI). unfold save_model_on. rewrite (fa_model _ _ _ _ _ _ _ _ F). cbn [bind]. unfold the_info. rewrite (ku_info _ _ _ _ _ K). cbn [bind].
    rewrite (env_in_same _ _ FI). destruct (ku_models _ _ _ _ _ K l _ m (proj1 (fa_tidy _ _ _ _ _ _ _ _ F)) A1) as (en & x' & NE & EX & KX). rewrite (fa_model _ _ _ _ _ _ _ _ F) in EX. injection EX as <-.
    destruct (Forall2_at _ _ _ _ _ (ku_disk _ _ _ _ _ K) NE) as (fl' & NF & ST). assert (fl' = fl) by (pose proof (fa_flags _ _ _ _ _ _ _ _ F); congruence). subst fl'.
    destruct (one_save i es e _ en x fl f EO NE KX (fa_state _ _ _ _ _ _ _ _ F) ST) as (o & EO' & ST' & OT). rewrite EO'. cbn [bind]. unfold save_model. rewrite (fa_model _ _ _ _ _ _ _ _ F). cbn [bind]. rewrite EO'. cbn [bind fst snd].
    cbn [run_lop] in E. rewrite E. cbn [bind]. eexists _, _. split; [reflexivity|]. split; [exact E|]. split; [|intros u NU; apply OT; intros ->; apply NU; apply in_map; eapply nth_error_In; exact NE].
    split; [exact SH'|exact I'|eapply models_kept; eauto|unfold with_flags; cbn; rewrite update_length; apply K|]. unfold with_flags. cbn [v_flags]. rewrite (fa_now _ _ _ _ _ _ _ _ F), (fa_saved _ _ _ _ _ _ _ _ F), <- surjective_pairing.
    eapply disk_at; [apply K|apply EO|exact NE|exact ST'|exact OT].
  - cbn [run_on fits] in *. cbn [vstep] in V. injection V as <-. destruct (shows_facts s v SH) as (l & m & x & d & fl & y & F). destruct (fa_tidy _ _ _ _ _ _ _ _ F) as (T1 & T2 & T3).
    cbn [run_lop] in E. unfold save_all_models in E. unfold save_all_on. destruct (Z.eqb (model_count s) 0) eqn:MC; [exfalso; rewrite (ob_models _ _ (observed_ok _ _ SH)) in MC; destruct (facts_range _ _ _ _ _ _ _ _ F); apply Z.eqb_eq in MC; lia|].
    unfold the_list in *. rewrite T1 in *. cbn [bind] in *. destruct (save_models_files i envs es EO FI l 0 s f es (v_flags v)) as (s1 & f1 & b & E1 & E2 & D & UT); auto.
    { intros a A; exact A. } { apply EO. } { apply K. } { eapply models_entries; eauto. eapply Forall2_len; exact T3. } { apply K. }
    rewrite E1. rewrite E2 in E. cbn [bind fst] in *. injection E as ->. exists s', f1. split; [reflexivity|]. split; [cbn [run_lop]; unfold save_all_models, the_list; rewrite MC, T1; cbn [bind]; now rewrite E2|]. split; [|exact UT].
    split; [exact SH'|exact I'|eapply models_kept; eauto| |exact D]. unfold with_flags. cbn [v_flags]. rewrite (ku_length _ _ _ _ _ K). clear. generalize (v_flags v), 0%nat. induction l as [|a l IH]; intros k; [reflexivity|]. cbn [after_save_all length]. f_equal. destruct (_ || _)%bool; [apply IH|reflexivity].
Qed.
Lemma run_files i es : entries_ok i es -> forall ops s f v v', kept_up i es s f v -> Forall (fits i) ops -> vrun v ops = Some v' ->
  exists s' f', runs_on s f ops = Ok (s', f') /\ run_lops s ops = Ok s' /\ kept_up i es s' f' v' /\ untouched es f f'.
Proof.
  intros EO. induction ops as [|o ops IH]; intros s f v v' K FI V; cbn [vrun] in V; [injection V as <-; exists s, f; repeat split; auto; apply K|]. destruct (vstep v o) as [v1|] eqn:E; [|discriminate].
  inversion_clear FI as [|? ? F1 F2]. destruct (step_files i es s f v o v1 EO K F1 E) as (s1 & f1 & R & RL & K1 & U1). destruct (IH s1 f1 v1 v' K1 F2 V) as (s' & f' & R' & RL' & K' & U'). exists s', f'. cbn [runs_on run_lops].
  rewrite R, RL. cbn [bind fst snd]. split; [exact R'|]. split; [exact RL'|]. split; [exact K'|]. intros u N. rewrite U' by exact N. now apply U1.
Qed.
