(** C80: what is saved when a diff has been opened together with its file. *)
From Coq Require Import String Permutation.
From Verif Require Import Base QtStr Diff Save Parser SpecHistory SpecPatch SpecParse SpecText SpecUnified Paths Blend SpecBlend SpecWorkflow Info ModelList SpecList World SpecWorld SpecBlendSave
  PHistory PropsText PEditLines PUnifiedDoc PropsUnified PropsRecreate PBlend PSave PropsBlend PWorkflow PropsWorkflow PModelState PList PListOpen PropsList PKin PWorld PAnyInput PropsRewritten PropsWorld.
From Verif Require PLevTable.
Local Open Scope Z_scope.

(** * Models that are the same but for their names and the state of their differences *)
Record like (x y : dmodel) : Prop := {
  lk_hunks : dm_hunks y = dm_hunks x;
  lk_diffs : dm_diffs y = dm_diffs x;
  lk_store : Forall2 similar (dm_store x) (dm_store y) }.
Lemma like_depth n b x y : set_depth_and_applied n b x = Ok y -> like x y.
Proof.
  unfold set_depth_and_applied. set (x1 := set_source_file _ x). set (x2 := set_destination_file _ x1). intros E. apply kin_apply_all in E as [_ K1 K2 K3].
  assert (N : forall z p, dm_hunks (set_source_file p z) = dm_hunks z /\ dm_diffs (set_source_file p z) = dm_diffs z /\ dm_store (set_source_file p z) = dm_store z).
  { intros z p. unfold set_source_file, split_source. destruct (last_index_of _ _); auto. }
  assert (M : forall z p, dm_hunks (set_destination_file p z) = dm_hunks z /\ dm_diffs (set_destination_file p z) = dm_diffs z /\ dm_store (set_destination_file p z) = dm_store z).
  { intros z p. unfold set_destination_file, split_destination. destruct (last_index_of _ _); auto. }
  destruct (N x (lstrip_separators (dm_source x) n)) as (N1 & N2 & N3), (M x1 (lstrip_separators (dm_destination x1) n)) as (M1 & M2 & M3). fold x1 in N1, N2, N3. fold x2 in M1, M2, M3.
  split; [congruence|congruence|]. now rewrite <- N3, <- M3.
Qed.
Definition alike_hunk (p q : filled) : Prop := fst q = fst p /\ Forall2 similar (snd p) (snd q).
Lemma like_hunks st st' hs : Forall2 similar st st' -> resolved st hs -> exists hs', resolved st' hs' /\ Forall2 alike_hunk hs hs'.
Proof.
  intros F. induction 1 as [|[h ds] hs R _ IH]; [exists []; split; constructor|]. destruct IH as (hs' & R' & S). cbn [fst snd] in R.
  destruct (kin_deref _ _ _ F _ R) as (ds' & D & S'). exists ((h, ds') :: hs'). split; constructor; auto. split; auto.
Qed.
Lemma alike_all hs hs' : Forall2 alike_hunk hs hs' -> map fst hs' = map fst hs /\ Forall2 similar (all_diffs hs) (all_diffs hs') /\ concat (map listed_of hs') = concat (map listed_of hs).
Proof.
  unfold all_diffs. induction 1 as [|[h ds] [h' ds'] hs hs' [E S] _ (I1 & I2 & I3)]; [repeat constructor|]. cbn [fst snd] in *. subst h'. cbn [map concat fst snd]. split; [congruence|]. split; [now apply Forall2_app|].
  rewrite I3. f_equal. unfold listed_of. cbn [fst snd]. clear -S. generalize (h_diffs h). induction S as [|d d' ds ds' S _ IH]; intros [|i l]; try reflexivity.
  cbn [combine filter snd]. rewrite (similar_context _ _ S). destruct (is_context d); cbn [negb map fst]; now rewrite IH.
Qed.
Lemma like_links x y hs : links x hs -> like x y -> exists hs', links y hs' /\ Forall2 alike_hunk hs hs'.
Proof.
  intros [L1 L2 L3 L4 L5 L6] [K1 K2 K3]. destruct (like_hunks _ _ _ K3 L2) as (hs' & R & A). exists hs'. split; [|exact A]. destruct (alike_all _ _ A) as (A1 & A2 & A3). split.
  - congruence.
  - exact R.
  - rewrite K2, L5, <- A3. apply (deref_listed _ _ R).
  - now rewrite K2.
  - congruence.
  - clear -A1 L6. rewrite <- (map_map fst h_diffs) in L6 |- *. now rewrite A1.
Qed.
Lemma similar_lines ds ds' : Forall2 similar ds ds' -> old_lines ds' = old_lines ds /\ new_lines ds' = new_lines ds.
Proof. induction 1 as [|d d' ds ds' (t & a & u & ->) _ [I1 I2]]; [auto|]. rewrite !old_cons, !new_cons, I1, I2. auto. Qed.
Lemma similar_standing ds ds' : Forall2 similar ds ds' -> forall s t, SpecBlend.standing s t ds -> SpecBlend.standing s t ds'.
Proof. induction 1 as [|d d' ds ds' (tr & a & u & ->) _ IH]; intros s t H; [exact H|]. cbn [SpecBlend.standing] in *. destruct H as (A & B & C). cbn. auto. Qed.
Lemma alike_turns s t A B hs : turns s t A B hs -> forall hs', Forall2 alike_hunk hs hs' -> turns s t A B hs'.
Proof.
  induction 1 as [s t same|s t same A B h ds hs E1 E2 ST T IH]; intros hs' F; [inversion F; constructor|]. inversion F as [|? [h' ds'] ? hs'' [E S] F' X1 X2]. subst. cbn [fst snd] in *. subst h'.
  destruct (similar_lines _ _ S) as [O N]. rewrite <- O, <- N. constructor; auto; [eapply similar_standing; eauto|]. rewrite O, N. now apply IH.
Qed.
Lemma alike_partly s fs A hs' R : partly s fs A hs' R -> forall hs, Forall2 alike_hunk hs hs' -> partly s fs A hs R.
Proof.
  induction 1 as [s same|s same A h ds hs f1 f2 R HA HL P IH]; intros gs F; [inversion F; constructor|]. inversion F as [|[h' ds'] ? gs' ? [E S] F' X1 X2]. subst. cbn [fst snd] in *. subst h.
  destruct (similar_lines _ _ S) as [O N]. rewrite O, (choose_alike f1 _ _ S). constructor; auto.
  - rewrite HL. clear -S. induction S as [|d d' l l' S _ IH]; [reflexivity|]. cbn. rewrite (similar_context _ _ S). destruct (negb (is_context d)); cbn; now rewrite IH.
  - rewrite <- O. now apply IH.
Qed.
(** What a model of the diff writes after it has been blended with the file. *)
Lemma blended_entry p x x2 text A B y : patch_ok p -> patch_is p x -> like x x2 -> lines_of_text text A -> patches true 1 1 A B (up_hunks p) -> blended_with text x2 y ->
  exists T, writes y T /\ (forall now, length now = all_changes (up_hunks p) -> mixture A (up_hunks p) now (T now)) /\ dm_diffs y = dm_diffs x.
Proof.
  intros OK PI LK LT P BW. pose proof BW as (x0 & y0 & S0 & EB & S1). pose proof LT as LT'. apply C01_split_lossless in LT'. destruct (patch_fresh p x OK PI A B P) as (hs & L & CS & FH & TU & FR & LN).
  destruct (like_links _ _ _ L LK) as (hs2 & L2 & AL). destruct (alike_all _ _ AL) as (AF & AS & _). pose proof (alike_turns _ _ _ _ _ TU _ AL) as TU2.
  pose proof (so_links _ _ _ S0 L2) as L0. destruct (blend_ok x0 hs2 text L0) as (mb & out & more & E & ES & LB & FI & SB & BL & FIT). rewrite EB in E. injection E as <-. rewrite LT' in FIT, FI. destruct (FIT B TU2) as (OO & NN & GG).
  pose proof (so_links _ _ _ S1 LB) as L1. exists (fun now => concat (choose now (all_diffs out))).
  assert (SC2 : same_context hs2). { unfold same_context. unfold context_same in CS. change (concat (map snd hs)) with (all_diffs hs) in CS. clear -CS AS. induction AS as [|d d' ds ds' (t & a & u & ->) _ IH]; [constructor|]. inversion_clear CS as [|? ? C1 C2]. constructor; [|auto]. intros C. now apply C1. }
  assert (SC : same_context out).
  { clear -FI SC2. unfold same_context, all_diffs in *. induction FI as [|q sk lines hs out _ _ IH|q lines hs out _ C _ IH]; [constructor| |]; cbn [map concat] in *.
    - apply Forall_app in SC2 as [Q1 Q2]. apply Forall_app. auto.
    - apply Forall_app. split; [|auto]. destruct C as (d & -> & _ & _ & _ & TY & _ & C & PR). constructor; [auto|constructor]. }
  split; [now apply links_write|]. split.
  - intros now LE. eexists. split; [|reflexivity]. rewrite <- LN in LE.
    assert (LE2 : length now = length (filter (fun d => negb (is_context d)) (all_diffs hs2))).
    { rewrite LE. clear -AS. induction AS as [|d d' l l' S _ IH]; [reflexivity|]. cbn. rewrite (similar_context _ _ S). destruct (negb (is_context d)); cbn; now rewrite IH. }
    destruct (partly_exists _ _ _ _ _ TU2 now LE2) as [R HR].
    assert (ER : choose now (all_diffs out) = R) by (eapply (partly_chosen _ _ _ FI 1 1 1 1 _ B []); [exact GG|exact TU2|reflexivity|reflexivity|exact HR]). rewrite ER. eapply partly_in_part; [|exact FH]. eapply alike_partly; eauto.
  - rewrite (blended_diffs text x2 y); [apply LK|eauto|exact BW].
Qed.

(** * Two disks *)
(** What is written does not depend on what the disk holds. *)
Definition tracks (f g f' g' : files) : Prop := forall u, (f u = g u -> f' u = g' u) /\ (f' u = g' u \/ (f' u = f u /\ g' u = g u)).
Lemma tracks_refl f g : tracks f g f g. Proof. intros u. auto. Qed.
Lemma tracks_trans f g f1 g1 f2 g2 : tracks f g f1 g1 -> tracks f1 g1 f2 g2 -> tracks f g f2 g2.
Proof. intros A B u. destruct (A u) as [A1 [A2|[A2 A3]]], (B u) as [B1 [B2|[B2 B3]]]; split; auto. right. split; congruence. Qed.
Lemma copied_tracks i x o f g : tracks f g (copied i x o f) (copied i x o g).
Proof.
  intros u. unfold copied. destruct (so_written o) as [t|]; [|auto]. unfold put_file. destruct (str_eqb (save_target i x) u); auto.
Qed.
Lemma save_model_tracks e s f m s1 f1 b g : save_model_on e s f m = Ok (s1, f1, b) -> exists g1, save_model_on e s g m = Ok (s1, g1, b) /\ tracks f g f1 g1.
Proof.
  unfold save_model_on. intros H. step H. step H. step H. step H. injection H as <- <- <-. cbn [bind].
  rewrite E1. cbn [bind]. rewrite E2. cbn [bind]. eexists. split; [reflexivity|]. apply copied_tracks.
Qed.
Lemma save_models_tracks envs : forall l k s f s1 f1 b g, save_models_on envs k s f l = Ok (s1, f1, b) -> exists g1, save_models_on envs k s g l = Ok (s1, g1, b) /\ tracks f g f1 g1.
Proof.
  induction l as [|m l IH]; intros k s f s1 f1 b g H; cbn [save_models_on] in *; [injection H as <- <- <-; exists g; split; [reflexivity|apply tracks_refl]|].
  destruct (save_model_on (envs k) s f m) as [[[s2 f2] ok]| |] eqn:E; cbn [bind] in H; try discriminate. destruct (save_model_tracks _ _ _ _ _ _ _ g E) as (g2 & E' & T). rewrite E'. cbn [bind].
  destruct ok; [|injection H as <- <- <-; eauto]. destruct (IH _ _ _ _ _ _ g2 H) as (g1 & E1 & T1). exists g1. split; [exact E1|]. eapply tracks_trans; eauto.
Qed.
Lemma run_on_tracks s f o s1 f1 g : run_on s f o = Ok (s1, f1) -> exists g1, run_on s g o = Ok (s1, g1) /\ tracks f g f1 g1.
Proof.
  intros H. assert (Q : (do s <- run_lop s o; Ok (s, f)) = Ok (s1, f1) -> exists g1, (do s <- run_lop s o; Ok (s, g)) = Ok (s1, g1) /\ tracks f g f1 g1).
  { intros X. destruct (run_lop s o) as [s'| |]; cbn [bind] in *; try discriminate. injection X as <- <-. exists g. split; [reflexivity|apply tracks_refl]. }
  destruct o; cbn [run_on] in *; try exact (Q H); clear Q.
  - unfold slot_save_on in *. destruct (ml_sel s) as [m|]; [|injection H as <- <-; exists g; split; [reflexivity|apply tracks_refl]].
    destruct (the_info s) as [i| |]; cbn [bind] in *; try discriminate. destruct (save_model_on e s f m) as [[[s2 f2] ok]| |] eqn:E; cbn [bind] in H; try discriminate. destruct (save_model_tracks _ _ _ _ _ _ _ g E) as (g2 & E' & T). rewrite E'. cbn [bind].
    destruct (slot_save (env_in i e) s) as [s3| |]; cbn [bind fst snd] in *; try discriminate. injection H as <- <-. eauto.
  - unfold save_all_on in *. destruct (Z.eqb (model_count s) 0); [cbn in *; injection H as <- <-; exists g; split; [reflexivity|apply tracks_refl]|].
    destruct (the_list s) as [l| |]; cbn [bind] in *; try discriminate. destruct (save_models_on envs 0 s f l) as [[[s2 f2] ok]| |] eqn:E; cbn [bind fst] in H; try discriminate. destruct (save_models_tracks _ _ _ _ _ _ _ _ g E) as (g2 & E' & T). rewrite E'. cbn [bind fst].
    injection H as <- <-. eauto.
Qed.
Lemma runs_on_tracks ops : forall s f s1 f1 g, runs_on s f ops = Ok (s1, f1) -> exists g1, runs_on s g ops = Ok (s1, g1) /\ tracks f g f1 g1.
Proof.
  induction ops as [|o ops IH]; intros s f s1 f1 g H; cbn [runs_on] in *; [injection H as <- <-; exists g; split; [reflexivity|apply tracks_refl]|].
  destruct (run_on s f o) as [[s2 f2]| |] eqn:E; cbn [bind fst snd] in H; try discriminate. destruct (run_on_tracks _ _ _ _ _ g E) as (g2 & E' & T). rewrite E'. cbn [bind fst snd].
  destruct (IH _ _ _ _ g2 H) as (g1 & E1 & T1). exists g1. split; [exact E1|]. eapply tracks_trans; eauto.
Qed.
Lemma runs_on_app a : forall b s f, runs_on s f (a ++ b) = do r <- runs_on s f a; runs_on (fst r) (snd r) b.
Proof. induction a as [|o a IH]; intros b s f; [reflexivity|]. cbn [app runs_on]. destruct (run_on s f o) as [[? ?]| |]; cbn [bind]; auto. Qed.
Lemma vrun_app a : forall b v, vrun v (a ++ b) = match vrun v a with Some w => vrun w b | None => None end.
Proof. induction a as [|o a IH]; intros b v; [reflexivity|]. cbn [app vrun]. destruct (vstep v o); auto. Qed.

(** * What one operation writes *)
Lemma save_model_writes j y T s m x fl e h s1 h1 b dst : ml_info s = Some j -> fits j (LSave e) -> model_of s m = Ok x -> kin y x -> PWorld.writes y T -> model_state x (fst fl) (snd fl) -> save_target j x = dst ->
  save_model_on e s h m = Ok (s1, h1, b) -> h1 = if (unsaved_flags fl && save_succeeds e)%bool then put_file h dst (T (fst fl)) else h.
Proof.
  intros I FI X K W MS TG H. destruct (save_text e y T x _ _ W K MS) as (o & EO & WR). unfold save_model_on in H. rewrite X in H. cbn [bind] in H. unfold the_info in H. rewrite I in H. cbn [bind] in H. rewrite (env_in_same j e FI), EO in H. cbn [bind] in H.
  step H. injection H as _ <- _. unfold copied. rewrite WR, <- surjective_pairing. destruct (_ && _)%bool; [now rewrite TG|reflexivity].
Qed.
Lemma step_writes j y T dst s g v o h s1 h1 : entries_ok j [mk_entry y T dst] -> kept_up j [mk_entry y T dst] s g v -> fits j o -> run_on s h o = Ok (s1, h1) ->
  h1 = if writes_file v o then put_file h dst (T (now_of v 0)) else h.
Proof.
  intros EO K FI H. destruct (shows_facts s v (ku_shows _ _ _ _ _ K)) as (lz & m & z & dd & fl & yy & FA). destruct (fa_at _ _ _ _ _ _ _ _ FA) as (A1 & A2 & A3). destruct (fa_tidy _ _ _ _ _ _ _ _ FA) as (T1 & T2 & T3).
  destruct (ku_models _ _ _ _ _ K lz _ m T1 A1) as (en' & z' & NEN & EX & KX). rewrite (fa_model _ _ _ _ _ _ _ _ FA) in EX. injection EX as <-.
  pose proof (fa_flags _ _ _ _ _ _ _ _ FA) as NFL. assert (VM : v_model v = 0%nat) by (destruct (v_model v) as [|[|k]]; [reflexivity|discriminate NEN..]). rewrite VM in *. injection NEN as <-.
  assert (TG : save_target j z = dst) by (pose proof (eo_urls _ _ EO) as Q; inversion_clear Q as [|? ? Q1 _]; exact (Q1 z KX)).
  assert (W : PWorld.writes y T) by (pose proof (eo_writes _ _ EO) as Q; inversion_clear Q as [|? ? Q1 _]; exact Q1).
  assert (LZ : lz = [m]). { pose proof (Forall2_len _ _ _ T3) as L1. pose proof (ku_length _ _ _ _ _ K) as L2. cbn in L2. destruct lz as [|m' [|m'' lz]]; cbn in *; try lia. injection A1 as ->. reflexivity. }
  assert (NV : (now_of v 0, saved_of v 0) = fl) by (unfold now_of, saved_of; rewrite NFL; now destruct fl).
  assert (NW : now_of v 0 = fst fl) by (rewrite <- NV; reflexivity).
  destruct o; cbn [run_on writes_file] in *; try (step H; injection H as _ <-; reflexivity).
  - unfold slot_save_on in H. rewrite A2 in H. step H. step H. step H. injection H as _ <-. destruct a0 as [[s2 h2] bb]. cbn [fst snd].
    rewrite NV, NW, andb_comm. eapply (save_model_writes j y T s m z fl e h s2 h2 bb dst); eauto; [apply K|apply (fa_model _ _ _ _ _ _ _ _ FA)|apply (fa_state _ _ _ _ _ _ _ _ FA)].
  - step H. injection H as H. unfold save_all_on in E. destruct (Z.eqb (model_count s) 0) eqn:MC; [exfalso; rewrite (ob_models _ _ (observed_ok _ _ (ku_shows _ _ _ _ _ K))) in MC; destruct (facts_range _ _ _ _ _ _ _ _ FA); apply Z.eqb_eq in MC; lia|].
    unfold the_list in E. rewrite T1, LZ in E. cbn [bind save_models_on] in E. step E. destruct a0 as [[s2 h2] bb]. assert (EH : h2 = h1) by (destruct bb; injection E as <-; injection H as _ <-; reflexivity). rewrite <- EH.
    rewrite NV, NW, andb_comm. eapply (save_model_writes j y T s m z fl (envs 0%nat) h s2 h2 bb dst); eauto; [apply K|exact (FI 0%nat)|apply (fa_model _ _ _ _ _ _ _ _ FA)|apply (fa_state _ _ _ _ _ _ _ _ FA)].
Qed.
Lemma run_writes j y T dst : entries_ok j [mk_entry y T dst] -> forall ops s g v w h s1 g1 h1, kept_up j [mk_entry y T dst] s g v -> Forall (fits j) ops -> vrun v ops = Some w ->
  runs_on s g ops = Ok (s1, g1) -> runs_on s h ops = Ok (s1, h1) -> if saves_something v ops then h1 dst = g1 dst else h1 = h.
Proof.
  intros EO. induction ops as [|o ops IH]; intros s g v w h s1 g1 h1 K F V G H; cbn [runs_on saves_something vrun] in *; [injection H as _ <-; reflexivity|].
  inversion_clear F as [|? ? F1 F2]. destruct (vstep v o) as [v1|] eqn:EV; [|discriminate]. destruct (step_files j _ s g v o v1 EO K F1 EV) as (s2 & g2 & R & _ & K2 & _).
  rewrite R in G. cbn [bind fst snd] in G. destruct (run_on_tracks _ _ _ _ _ h R) as (h2 & RH & _). rewrite RH in H. cbn [bind fst snd] in H.
  pose proof (step_writes j y T dst s g v o h s2 h2 EO K F1 RH) as QH. pose proof (step_writes j y T dst s g v o g s2 g2 EO K F1 R) as QG. destruct (writes_file v o); cbn [orb].
  - destruct (runs_on_tracks _ _ _ _ _ h2 G) as (h3 & RH' & TR). rewrite H in RH'. injection RH' as <-. destruct (TR dst) as [TD _]. symmetry. apply TD. rewrite QH, QG. unfold put_file. now rewrite (proj2 (PLevTable.str_eqb_ok dst dst) eq_refl).
  - rewrite QH in H. eapply IH; eauto.
Qed.

(** * C80 *)
(** A diff about one file is opened together with that file, the differences applied or not as the Info says. Whatever the user
    does then: when something has been saved, the place of saving holds the file with exactly those changes worked in that were
    not applied at the last save, and no other file is touched; when nothing has been saved, no file at all is. *)
Theorem C80_blended_file_is_saved_partial :
  forall o s i d p A B f, (forall l, Permutation (os_sort o l) l) -> doc_ok d -> ud_files d = [p] ->
  ml_info s = Some i -> in_mode i <> ComparingDirs -> os_read o (in_local_destination i) = doc_text d ->
  os_is_dir o (in_local_source i) = false -> os_is_file o (in_local_source i) = true -> lines_of_text (os_read o (in_local_source i)) A ->
  patches true 1 1 A B (up_hunks p) ->
  exists s1, open_and_blend o s = Ok (s1, true) /\ shows s1 (blended_files [p] (in_applied i) (ml_rw s)) /\
  forall ops v, Forall (fits i) ops -> vrun (blended_files [p] (in_applied i) (ml_rw s)) ops = Some v ->
  exists s' f', runs_on s1 f ops = Ok (s', f') /\ shows s' v /\
    if saves_something (blended_files [p] (in_applied i) (ml_rw s)) ops
    then mixture A (up_hunks p) (saved_of v 0) (text_at f' (in_destination i)) /\ (forall u, u <> in_destination i -> f' u = f u)
    else f' = f.
Proof.
  intros o s i d p A B f HP OK DF I MD RD ND NF LT P. destruct (doc_models _ d HP OK) as (po & ms & order & EP & EM & PO & F). rewrite DF in PO. symmetry in PO. apply Permutation_length_1_inv in PO. subst order.
  inversion F as [|? x ? ms' PI F' E1 E2]. inversion F' as [E3|]. subst ms ms'. assert (OKP : patch_ok p) by (pose proof (do_files _ OK) as Q; rewrite DF in Q; now inversion Q).
  assert (PR : parse_ready o (os_read o (in_local_destination i)) po [x]) by (rewrite RD; exact (conj HP (conj EP EM))).
  destruct (open_and_blend_ok o s po [x] i I PR) as (s1 & E & SH & HO & I1 & _). rewrite ND, NF in E. exists s1. split; [exact E|].
  assert (LX : length (dm_diffs x) = all_changes (up_hunks p)) by (now apply patch_changes).
  assert (OV : opened [x] (in_applied i) (ml_rw s) = blended_files [p] (in_applied i) (ml_rw s)) by (unfold opened, blended_files; cbn [map]; now rewrite LX). rewrite OV in SH. split; [exact SH|].
  set (v0 := blended_files [p] (in_applied i) (ml_rw s)) in *. set (j := with_parsed i (po_generator po) (po_format po)) in *.
  destruct HO as (l0 & M & LL & HO). destruct l0 as [|m0 [|m1 lr]]; cbn in LL; try discriminate LL. destruct (HO 0%nat m0 eq_refl) as (y & Y & x' & x1 & x2 & NX & S0 & SD & OR). cbn in NX. injection NX as <-.
  unfold SpecList.original in OR. rewrite ND, NF in OR.
  assert (LK : like x x2). { apply like_depth in SD. unfold sel_only in S0. rewrite S0 in SD. destruct SD as [K1 K2 K3]. split; assumption. }
  destruct (blended_entry p x x2 _ A B y OKP PI LK LT P OR) as (T & W & TM & DY). set (dst := in_destination i). set (g := put_file f dst (T (repeat false (all_changes (up_hunks p))))).
  set (en := mk_entry y T dst).
  assert (EO : entries_ok j [en]).
  { split; [constructor; [exact W|constructor]| |constructor; [intros []|constructor]]. constructor; [|constructor]. intros z K. rewrite (kin_target j y z K). unfold save_target, en. cbn. destruct (in_mode i); try reflexivity. exfalso. apply MD. reflexivity. }
  assert (K0 : kept_up j [en] s1 g v0).
  { split; [exact SH|exact I1| |reflexivity|].
    - intros lx k m M' N. rewrite M in M'. injection M' as <-. destruct k as [|[|k]]; try discriminate N. injection N as <-. exists en, y. split; [reflexivity|]. split; [exact Y|apply kin_refl].
    - constructor; [|constructor]. unfold stored. cbn. apply text_put. }
  intros ops v FI V. assert (FJ : Forall (fits j) ops) by exact FI.
  destruct (run_files j [en] EO ops s1 g v0 v K0 FJ V) as (s' & g' & R & RL & K & U). destruct (runs_on_tracks ops s1 g s' g' f R) as (f' & RF & TR).
  exists s', f'. split; [exact RF|]. split; [apply K|].
  assert (MX : forall w s2 g2, kept_up j [en] s2 g2 w -> mixture A (up_hunks p) (saved_of w 0) (text_at g2 dst)).
  { intros w s2 g2 [KS KI KM KL KD]. inversion KD as [|? fl ? fls ST KD' X1 X2]. inversion KD' as [X3|]. subst. unfold stored in ST. cbn in ST. rewrite ST. unfold saved_of. rewrite <- X2. cbn. apply TM.
    apply shows_split in KS as (_ & l & m & (T1 & T2 & T3) & _). rewrite <- X2 in T3. inversion T3 as [|m' ? l' ? (z & EZ & MS) T4]; subst. inversion T4; subst. destruct (KM _ 0%nat m' T1 eq_refl) as (e' & z' & NE & EZ' & KZ). injection NE as <-. rewrite EZ in EZ'. injection EZ' as <-.
    rewrite (ms_saved _ _ _ MS), <- (ms_len _ _ _ MS), (kn_diffs _ _ KZ). cbn. congruence. }
  pose proof (run_writes j y T dst EO ops s1 g v0 v f s' g' f' K0 FJ V R RF) as Q. destruct (saves_something v0 ops); [|exact Q].
  split; [unfold text_at; fold dst; rewrite Q; exact (MX _ _ _ K)|].
  intros u NU. destruct (TR u) as [TU _]. rewrite <- TU by (unfold g; apply file_other; congruence). rewrite U by (intros [X|[]]; apply NU; symmetry; exact X). unfold g. apply file_other. congruence.
Qed.
Print Assumptions C80_blended_file_is_saved_partial.
(** What the theorem leaves open is false of the code: that the place of saving holds the text that is shown as soon as nothing
    is unsaved. Opening with the differences applied, as the Info does by default, and unapplying them makes nothing unsaved:
    a save writes nothing, and the place of saving still holds the diff. *)
Theorem C80_nothing_unsaved_means_saved_refuted :
  exists o s i d p A B f ops s1 s' f' v, (forall l, Permutation (os_sort o l) l) /\ doc_ok d /\ ud_files d = [p] /\
    ml_info s = Some i /\ in_mode i = BlendingFile /\ os_read o (in_local_destination i) = doc_text d /\ lines_of_text (os_read o (in_local_source i)) A /\ patches true 1 1 A B (up_hunks p) /\
    f (in_destination i) = Some (doc_text d) /\ open_and_blend o s = Ok (s1, true) /\ In (LSave good) ops /\
    runs_on s1 f ops = Ok (s', f') /\ shows s' v /\ has_unsaved_changes s' = Ok false /\
    f' (in_destination i) = Some (doc_text d) /\ ~ mixture A (up_hunks p) (now_of v 0) (text_at f' (in_destination i)).
Proof.
  destruct C17_example as [OK _]. destruct C55_example as (P & _ & LT). set (ops := [LActApplyAll false; LSave good]). set (s := slot_kompare_info (new_mlist true) blend_urls). set (p := hd (mk_up [] [] [] [] [] None None []) (ud_files canonical_doc)).
  assert (PP : patches true 1 1 sample_old sample_new (up_hunks p)) by exact P.
  destruct (C80_blended_file_is_saved_partial blend_world s blend_urls canonical_doc p sample_old sample_new blend_disk (fun l => Permutation_refl l) OK eq_refl eq_refl ltac:(discriminate) eq_refl eq_refl eq_refl LT PP) as (s1 & E & _ & R).
  destruct (R ops (mk_view [([false; false], [false; false])] 0 0 true)) as (s' & f' & E1 & SH & _); [repeat constructor; exact (fun _ => eq_refl)|reflexivity|].
  assert (C : match open_and_blend blend_world s with
    | Ok (s1, b) => match runs_on s1 blend_disk ops with
                    | Ok (s', f') => has_unsaved_changes s' = Ok false /\ f' (in_destination blend_urls) = Some (doc_text canonical_doc) | _ => False end
    | _ => False end) by (vm_compute; auto).
  rewrite E, E1 in C. destruct C as [C1 C2].
  exists blend_world, s, blend_urls, canonical_doc, p, sample_old, sample_new, blend_disk, ops, s1, s', f', (mk_view [([false; false], [false; false])] 0 0 true).
  split; [intros l; apply Permutation_refl|]. split; [exact OK|]. do 4 (split; [reflexivity|]). split; [exact LT|]. split; [exact PP|]. split; [reflexivity|]. split; [exact E|]. split; [right; left; reflexivity|].
  split; [exact E1|]. split; [exact SH|]. split; [exact C1|]. split; [exact C2|]. intros M. destruct (C62_mixture_ends _ _ _ _ _ PP M) as [Q _].
  assert (X : text_at f' (in_destination blend_urls) = concat sample_new) by (apply Q; cbn; intuition).
  unfold text_at in X. rewrite C2 in X. vm_compute in X. discriminate X.
Qed.
Print Assumptions C80_nothing_unsaved_means_saved_refuted.
(** The hypotheses of the theorem are met, with something saved: the first change is unapplied, the other stays applied. *)
Example C80_example : doc_ok canonical_doc /\ length (ud_files canonical_doc) = 1%nat /\ in_mode blend_urls <> ComparingDirs /\
  os_read blend_world (in_local_destination blend_urls) = doc_text canonical_doc /\ lines_of_text (os_read blend_world (in_local_source blend_urls)) sample_old /\ patches true 1 1 sample_old sample_new sample_hunks /\
  Forall (fits blend_urls) [LApply false; LSave good; LActApplyAll false] /\
  vrun (blended_files (ud_files canonical_doc) (in_applied blend_urls) true) [LApply false; LSave good; LActApplyAll false] = Some (mk_view [([false; false], [false; true])] 0 0 true) /\
  saves_something (blended_files (ud_files canonical_doc) (in_applied blend_urls) true) [LApply false; LSave good; LActApplyAll false] = true.
Proof.
  destruct C17_example as [OK _]. destruct C55_example as (P & _ & LT). split; [exact OK|]. split; [reflexivity|]. split; [discriminate|]. split; [reflexivity|]. split; [exact LT|]. split; [exact P|].
  split; [repeat constructor; exact (fun _ => eq_refl)|]. split; reflexivity.
Qed.
(** What the model computes: the file of the diff holds the old file with the first change. *)
Example C80_computed :
  (do r <- open_and_blend blend_world (slot_kompare_info (new_mlist true) blend_urls);
   do r <- runs_on (fst r) blend_disk [LApply false; LSave good; LActApplyAll false];
   Ok (text_at (snd r) (lit "/my.diff"), text_at (snd r) (lit "/old"))) =
  Ok (concat (lines ["1"; "2"; "a"; ""; "c"; "d"; "e"; "7"; "8"; "9"; "10"; "11"; "12"; "13"; "14"; "15"; "16"; "17"; "18"; "19"; "x"; "21"]%string), concat sample_old).
Proof. vm_compute. reflexivity. Qed.
