(** The models of a list under the operations on one model. *)
From Coq Require Import String Permutation.
From Verif Require Import Base QtStr Diff Save Parser SpecHistory SpecPatch SpecParse Blend SpecBlend Info ModelList SpecList PHistory PEditLines PUnifiedDoc PBlend PSave PAnyInput PropsParse.
Local Open Scope Z_scope.

Lemma ms_nodup x now saved : model_state x now saved -> NoDup (dm_diffs x).
Proof. intros [(hs & [_ _ _ N _ _]) _ _ _ _ _]. exact N. Qed.
Lemma ms_len x now saved : model_state x now saved -> length (dm_diffs x) = length now.
Proof.
  intros [_ _ (ds & L & A & _) _ _ _]. unfold listed in L. destruct (deref_all_ok _ _ _ L) as [E _]. rewrite <- A, map_length. congruence.
Qed.
Lemma ms_pos x now saved : model_state x now saved -> (0 < length now)%nat.
Proof. intros M. rewrite <- (ms_len _ _ _ M). destruct M as [_ S _ _ _ _]. destruct (dm_diffs x); [congruence|cbn; lia]. Qed.
Lemma ms_nth x now saved k : model_state x now saved -> (k < length now)%nat -> exists d, nth_error (dm_diffs x) k = Some d /\ diff_at x (Z.of_nat k) = Ok d.
Proof.
  intros M L. rewrite <- (ms_len _ _ _ M) in L. destruct (nth_error_Some_lt _ _ L) as [d E]. exists d. split; [exact E|].
  unfold diff_at. destruct (Z.ltb_spec (Z.of_nat k) 0); [lia|]. rewrite Nat2Z.id, E. reflexivity.
Qed.
Lemma ms_select x now saved i sel : model_state x now saved ->
  (forall d, sel = Some d -> 0 <= i /\ nth_error (dm_diffs x) (Z.to_nat i) = Some d) -> model_state (with_selection x i sel) now saved.
Proof.
  intros [(hs & [L1 L2 L3 L4 L5 L6]) S F SV C _] H. split; auto. exists hs. split; assumption.
Qed.
Lemma ms_diff x now saved k d : model_state x now saved -> nth_error (dm_diffs x) k = Some d ->
  exists y, deref (dm_store x) d = Ok y /\ nth_error now k = Some (d_applied y) /\ (exists ds, listed x = Ok ds /\ nth_error ds k = Some y).
Proof.
  intros [_ _ (ds & L & A & _) _ _ _] N. unfold listed in L. destruct (deref_all_ok _ _ _ L) as [_ H]. destruct (H k d N) as (y & E1 & E2).
  exists y. unfold deref. rewrite E1. split; [reflexivity|]. split; [|exists ds; auto]. rewrite <- A. now rewrite nth_error_map, E2.
Qed.
(** Any change of applied state, unsaved state and tracking numbers of the listed differences. *)
Lemma ms_change x y now saved now' saved' l0 l1 : model_state x now saved -> same_rest x y -> dm_sel y = dm_sel x -> dm_index y = dm_index x ->
  listed x = Ok l0 -> listed y = Ok l1 -> Forall2 similar l0 l1 -> dm_applied y = count_true now' ->
  map d_applied l1 = now' -> length saved' = length now' -> map d_unsaved l1 = map (fun p => xorb (fst p) (snd p)) (combine now' saved') ->
  model_state y now' saved'.
Proof.
  intros [(hs & L) S F SV C SE] SR E1 E2 LX LY SI AC A SL U.
  assert (SD : dm_diffs y = dm_diffs x) by apply SR. destruct (links_rest x y hs l0 l1 L SR LX LY SI) as (hs' & L' & _). split.
  - exists hs'. exact L'.
  - rewrite SD. exact S.
  - exists l1. auto.
  - exact SL.
  - exact AC.
  - rewrite E1, E2, SD. exact SE.
Qed.
Lemma same_rest_refl x : same_rest x x. Proof. unfold same_rest. repeat split; auto. Qed.
Lemma similar_track d t : similar d (set_track t d). Proof. exists t, (d_applied d), (d_unsaved d). now destruct d. Qed.
Lemma count_update l k f b : nth_error l k = Some f -> count_true (update l k b) = count_true l + (if b then 1 else 0) - (if f then 1 else 0).
Proof.
  revert k. induction l as [|g l IH]; intros [|k] E; cbn in *; try discriminate; [injection E as ->; lia|]. rewrite (IH k E). lia.
Qed.
Lemma map_update {A B} (f : A -> B) l k v : map f (update l k v) = update (map f l) k (f v).
Proof. revert k. induction l as [|x l IH]; intros [|k]; cbn; congruence. Qed.
Lemma Forall2_update {A} (R : A -> A -> Prop) l k x y : (forall a, R a a) -> nth_error l k = Some x -> R x y -> Forall2 R l (update l k y).
Proof.
  intros RF. revert k. induction l as [|z l IH]; intros [|k] E H; cbn in *; try discriminate.
  - injection E as ->. constructor; [exact H|]. clear -RF. induction l; constructor; auto.
  - constructor; auto.
Qed.
Lemma combine_update (now saved : list bool) : forall k f b, nth_error now k = Some f -> length saved = length now -> f <> b ->
  map (fun p => xorb (fst p) (snd p)) (combine (update now k b) saved) =
  match nth_error saved k with Some s => update (map (fun p => xorb (fst p) (snd p)) (combine now saved)) k (xorb b s) | None => [] end.
Proof.
  revert saved. induction now as [|g now IH]; intros [|s saved] [|k] f b E L N; cbn in *; try discriminate; try lia.
  - reflexivity.
  - rewrite (IH saved k f b E ltac:(lia) N). destruct (nth_error saved k) eqn:D; [reflexivity|].
    exfalso. apply nth_error_None in D. apply nth_some_lt in E. lia.
Qed.
Lemma update_twice {A} (l : list A) k v w : update (update l k v) k w = update l k w.
Proof. revert k. induction l; intros [|k]; cbn; congruence. Qed.
Lemma quiet_ok b y : d_applied y <> b ->
  d_applied (apply_quietly b y) = b /\ d_unsaved (apply_quietly b y) = negb (d_unsaved y) /\ similar y (apply_quietly b y) /\ d_connected (apply_quietly b y) = d_connected y.
Proof.
  intros N. unfold apply_quietly. destruct (Bool.eqb_spec (d_applied y) b); [contradiction|]. split; [reflexivity|]. split; [reflexivity|].
  split; [|reflexivity]. eexists (d_track y), b, _. reflexivity.
Qed.
Lemma ms_apply x now saved k b : model_state x now saved -> nth_error (dm_diffs x) k = dm_sel x -> dm_sel x <> None ->
  exists y, apply_difference x b = Ok y /\ model_state y (update now k b) saved /\ dm_diffs y = dm_diffs x /\ dm_sel y = dm_sel x /\ dm_index y = dm_index x.
Proof.
  intros M EK NN. unfold apply_difference. destruct (dm_sel x) as [d|] eqn:ES; [|congruence]. clear NN.
  pose proof M as [(hs & LK) SO (ds & L & A & U) SV C SE].
  destruct (ms_diff _ _ _ _ _ M EK) as (y & DY & AY & (ds' & L' & NY)). rewrite L in L'. injection L' as <-. rewrite DY. cbn [bind].
  destruct (Bool.eqb_spec (d_applied y) b) as [EB|NB].
  - exists x. split; [reflexivity|]. split; [|auto]. rewrite update_same_value by congruence. exact M.
  - unfold apply_id. cbn [dm_store with_applied]. rewrite DY. cbn [bind]. destruct (Bool.eqb_spec (d_applied y) b); [contradiction|].
    set (y1 := apply_quietly b y). set (st1 := update (dm_store x) d y1). unfold listed in L.
    assert (D1 : deref_all st1 (dm_diffs x) = Ok (update ds k y1)) by (eapply deref_all_update; eauto using ms_nodup).
    assert (F1 : frame (dm_diffs x) (dm_store x) st1) by (apply frame_update; eapply nth_error_In; exact EK).
    assert (Y1 : d_applied y1 = b /\ d_unsaved y1 = negb (d_unsaved y) /\ similar y y1 /\ d_connected y1 = d_connected y).
    { apply quiet_ok. exact NB. }
    destruct Y1 as (Y1 & Y2 & Y3 & Y4).
    assert (FIN : forall st2 l1, frame (dm_diffs x) st1 st2 -> deref_all st2 (dm_diffs x) = Ok l1 -> Forall2 similar (update ds k y1) l1 ->
      map d_applied l1 = map d_applied (update ds k y1) -> map d_unsaved l1 = map d_unsaved (update ds k y1) ->
      model_state (with_store (with_applied x (if b then dm_applied x + 1 else dm_applied x - 1)) st2) (update now k b) saved).
    { intros st2 l1 F2 D2 S2 A2 U2. eapply (ms_change x _ now saved _ _ ds l1 M).
      - change (same_rest x (with_store (with_applied x (if b then dm_applied x + 1 else dm_applied x - 1)) st2)).
        apply same_rest_store; [unfold same_rest; repeat split; auto|]. cbn. eapply frame_trans; eauto.
      - reflexivity.
      - reflexivity.
      - exact L.
      - exact D2.
      - assert (Forall2 similar ds (update ds k y1)) as Q by (eapply Forall2_update; eauto using similar_refl).
        clear -Q S2. revert l1 S2. induction Q; intros l1 S2; inversion S2; subst; constructor; eauto using similar_trans.
      - change (dm_applied (with_store _ st2)) with (if b then dm_applied x + 1 else dm_applied x - 1). rewrite C, (count_update _ _ _ b AY).
        destruct b, (d_applied y); try congruence; lia.
      - rewrite A2, map_update, A, Y1. reflexivity.
      - rewrite update_length. exact SV.
      - rewrite U2, map_update, Y2. rewrite (combine_update now saved k _ b AY SV NB). rewrite U.
        assert (NU : nth_error (map d_unsaved ds) k = Some (d_unsaved y)) by (now rewrite nth_error_map, NY). rewrite U in NU.
        destruct (nth_error saved k) as [s|] eqn:NS.
        + f_equal. rewrite nth_error_map in NU.
          assert (NC : nth_error (combine now saved) k = Some (d_applied y, s)).
          { clear -AY NS. revert saved k AY NS. induction now as [|g now IH]; intros [|h saved] [|k] E1 E2; cbn in *; try discriminate; [congruence|eauto]. }
          rewrite NC in NU. cbn in NU. injection NU as <-. destruct (d_applied y), b, s; try congruence; reflexivity.
        + exfalso. apply nth_error_None in NS. apply nth_some_lt in AY. lia. }
    destruct (d_connected y1).
    + unfold slot_difference_applied. cbn [dm_diffs dm_store with_store with_contents with_applied].
      destruct (shift_ok (d_dst y1) (difference_delta y1) _ _ _ D1 (ms_nodup _ _ _ M)) as (st2 & E2 & F2 & D2). rewrite E2. cbn [bind].
      eexists. split; [reflexivity|]. split; [|auto]. eapply FIN; [exact F2|exact D2| | |].
      * clear. induction (update ds k y1) as [|z l IH]; [constructor|]. cbn [map]. constructor; [|exact IH]. destruct (Z.ltb _ _); [apply similar_track|apply similar_refl].
      * clear. rewrite map_map. apply map_ext. intros z. destruct (Z.ltb _ _); reflexivity.
      * clear. rewrite map_map. apply map_ext. intros z. destruct (Z.ltb _ _); reflexivity.
    + eexists. split; [reflexivity|]. split; [|auto]. eapply FIN; [apply frame_refl|exact D1| |reflexivity|reflexivity].
      clear. induction (update ds k y1); constructor; auto using similar_refl.
Qed.
Lemma apply_all_view_flags b ds : forall t saved, length saved = length ds ->
  map d_unsaved ds = map (fun p => xorb (fst p) (snd p)) (combine (map d_applied ds) saved) ->
  map d_applied (apply_all_view b t ds) = map (fun _ => b) ds /\
  map d_unsaved (apply_all_view b t ds) = map (fun p => xorb (fst p) (snd p)) (combine (map (fun _ => b) ds) saved) /\
  Forall2 similar ds (apply_all_view b t ds).
Proof.
  induction ds as [|d ds IH]; intros t [|s saved] L U; cbn in L; try lia; [cbn; auto|]. cbn [map combine fst snd] in U. injection U as U1 U2.
  cbn [apply_all_view]. set (d1 := set_track (d_track d + t) d). assert (AP : d_applied d1 = d_applied d /\ d_unsaved d1 = d_unsaved d) by (split; reflexivity). destruct AP as [AP AU].
  rewrite AP. destruct (Bool.eqb_spec (d_applied d) b) as [EB|NB].
  - destruct (IH t saved ltac:(lia) U2) as (I1 & I2 & I3). cbn [map combine fst snd]. rewrite I1, I2, AP, AU, U1, EB. repeat split. constructor; [apply similar_track|exact I3].
  - destruct (IH (t + difference_delta (apply_quietly b d1)) saved ltac:(lia) U2) as (I1 & I2 & I3). cbn [map combine fst snd]. rewrite I1, I2.
    destruct (quiet_ok b d1 NB) as (Q1 & Q2 & Q3 & _). rewrite Q1, Q2, AU, U1. split; [reflexivity|]. split; [f_equal; destruct (d_applied d), b, s; try congruence; reflexivity|].
    constructor; [|exact I3]. eapply similar_trans; [apply (similar_track d (d_track d + t))|]. exact Q3.
Qed.
Lemma count_same b {A} (l : list A) : count_true (map (fun _ => b) l) = if b then Z.of_nat (length l) else 0.
Proof. induction l as [|x l IH]; cbn [map count_true length]; [now destruct b|]. rewrite IH. destruct b; lia. Qed.
Lemma ms_apply_all x now saved b : model_state x now saved ->
  exists y, apply_all x b = Ok y /\ model_state y (map (fun _ => b) now) saved /\ dm_diffs y = dm_diffs x /\ dm_sel y = dm_sel x /\ dm_index y = dm_index x.
Proof.
  intros M. unfold apply_all. cbn [dm_diffs dm_store with_applied]. pose proof M as [(hs & LK) SO (ds & L & A & U) SV C SE]. unfold listed in L.
  destruct (apply_all_ok b _ _ _ 0 L (ms_nodup _ _ _ M)) as (st & E & F & D). rewrite E. cbn [bind]. eexists. split; [reflexivity|]. split; [|auto].
  assert (LD : length saved = length ds) by (rewrite SV, <- A, map_length; reflexivity). rewrite <- A in U.
  destruct (apply_all_view_flags b ds 0 saved LD U) as (V1 & V2 & V3).
  assert (EM : map (fun _ => b) now = map (fun _ : difference => b) ds) by (rewrite <- A, map_map; reflexivity).
  eapply (ms_change x _ now saved _ _ ds _ M).
  - apply same_rest_store; [unfold same_rest; repeat split; auto|]. exact F.
  - reflexivity.
  - reflexivity.
  - exact L.
  - exact D.
  - exact V3.
  - cbn. rewrite count_same. rewrite (ms_len _ _ _ M). reflexivity.
  - now rewrite V1, EM.
  - now rewrite map_length.
  - now rewrite V2, EM.
Qed.
Lemma combine_self (l : list bool) : map (fun p => xorb (fst p) (snd p)) (combine l l) = map (fun _ => false) l.
Proof. induction l as [|b l IH]; [reflexivity|]. cbn [combine map fst snd]. now rewrite xorb_nilpotent, IH. Qed.
Lemma unsaved_iff x now saved : model_state x now saved -> has_unsaved x = Ok (unsaved_flags (now, saved)).
Proof.
  intros [_ _ (ds & L & A & U) _ _ _]. unfold has_unsaved. unfold listed in L. rewrite L. cbn [bind]. f_equal. unfold unsaved_flags. cbn [fst snd].
  assert (K : forall {T} (f : T -> bool) l, existsb f l = existsb (fun b => b) (map f l)) by (intros T f l; induction l; cbn; congruence).
  rewrite K, U, <- K. reflexivity.
Qed.
Lemma unsaved_same now saved : length saved = length now -> unsaved_flags (now, saved) = false -> now = saved.
Proof.
  unfold unsaved_flags. cbn [fst snd]. revert saved. induction now as [|b now IH]; intros [|s saved] L E; cbn in *; try lia; [reflexivity|].
  apply orb_false_iff in E as [E1 E2]. apply xorb_eq in E1. subst. f_equal. apply IH; [lia|exact E2].
Qed.
Lemma ms_save e x now saved : model_state x now saved ->
  exists o, save_destination e x = Ok o /\ model_state (so_model o) now (if save_succeeds e then now else saved) /\
    dm_diffs (so_model o) = dm_diffs x /\ dm_sel (so_model o) = dm_sel x /\ dm_index (so_model o) = dm_index x /\
    so_ret o = (negb (unsaved_flags (now, saved)) || save_goes_on e)%bool /\
    so_error o = (unsaved_flags (now, saved) && negb (save_succeeds e))%bool.
Proof.
  intros M. pose proof M as [(hs & LK) SO (ds & L & A & U) SV C SE]. unfold save_destination. rewrite (unsaved_iff _ _ _ M). cbn [bind].
  destruct (unsaved_flags (now, saved)) eqn:UF; cbn [negb orb andb].
  2:{ eexists. split; [reflexivity|]. cbn. apply unsaved_same in UF; [|exact SV]. subst saved. destruct (save_succeeds e); auto 10. }
  destruct LK as [L1 L2 L3 L4 L5 L6]. rewrite L1, (saved_lines_kept _ _ L2). cbn [bind]. unfold listed in L.
  destruct (clear_ok _ _ _ L L4) as (st' & EC & F & V). rewrite EC. cbn [bind].
  assert (OK : model_state (with_store x st') now now).
  { eapply (ms_change x _ now saved _ _ ds _ M).
    - apply same_rest_store; [apply same_rest_refl|exact F].
    - reflexivity.
    - reflexivity.
    - exact L.
    - exact V.
    - clear. induction ds as [|d ds IH]; constructor; [|exact IH]. eexists (d_track d), (d_applied d), false. reflexivity.
    - exact C.
    - rewrite map_map. exact A.
    - reflexivity.
    - rewrite combine_self, map_map. rewrite <- A, map_map. reflexivity. }
  unfold save_succeeds, save_goes_on.
  destruct (se_open e), (se_write e), (se_close e), (se_dirs e), (se_stat e), (se_mkdir e), (se_copy e); cbn [negb andb orb];
    eexists; (split; [reflexivity|]); cbn [so_model so_ret so_error]; auto 10.
Qed.
(** Blending keeps it. *)
Lemma ms_blend x now saved text : model_state x now saved ->
  exists y, blend_file x text = Ok y /\ model_state y now saved /\ dm_diffs y = dm_diffs x /\ dm_sel y = dm_sel x /\ dm_index y = dm_index x /\ dm_blended y = true.
Proof.
  intros [(hs & L) SO (ds & LI & A & U) SV C SE]. destruct (blend_ok x hs text L) as (y & out & more & E & ES & LB & FI & SB & BL & _).
  exists y. split; [exact E|]. assert (Q : dm_diffs y = dm_diffs x /\ dm_sel y = dm_sel x /\ dm_index y = dm_index x /\ dm_applied y = dm_applied x).
  { unfold same_but_hunks in SB. destruct x, y. cbn in *. injection SB. intros; subst; auto. }
  destruct Q as (Q1 & Q2 & Q3 & Q4). split; [|auto]. split.
  - exists out. exact LB.
  - now rewrite Q1.
  - exists ds. split; [|auto]. unfold listed in *. rewrite Q1, ES. now apply deref_all_grow.
  - exact SV.
  - now rewrite Q4.
  - rewrite Q1, Q2, Q3. exact SE.
Qed.
(** Renaming keeps it. *)
Lemma ms_names x now saved a b c d e f : model_state x now saved -> model_state (with_names x a b c d e f) now saved.
Proof. intros [(hs & [L1 L2 L3 L4 L5 L6]) SO F SV C SE]. split; auto. exists hs. split; assumption. Qed.
Lemma ms_set_source x now saved p : model_state x now saved -> model_state (set_source_file p x) now saved.
Proof.
  intros M. unfold set_source_file, split_source. destruct (last_index_of _ _); apply ms_names, ms_names, M.
Qed.
Lemma ms_set_destination x now saved p : model_state x now saved -> model_state (set_destination_file p x) now saved.
Proof.
  intros M. unfold set_destination_file, split_destination. destruct (last_index_of _ _); apply ms_names, ms_names, M.
Qed.
(** What the parser returns. *)
Lemma ms_fresh x hs : contents x hs -> dm_diffs x <> [] -> Forall (fun p => Forall pristine (snd p)) hs ->
  model_state x (repeat false (length (dm_diffs x))) (repeat false (length (dm_diffs x))).
Proof.
  intros [L (S1 & S2 & S3 & S4)] N P. assert (PL : Forall (fun d => d_applied d = false /\ d_unsaved d = false) (filter (fun d => negb (is_context d)) (concat (map snd hs)))).
  { apply Forall_forall. intros d I. apply filter_In in I as [I _]. apply in_concat in I as (l & I1 & I2). apply in_map_iff in I1 as (p & <- & I1).
    rewrite Forall_forall in P. specialize (P p I1). rewrite Forall_forall in P. destruct (P d I2) as (A & B & _). auto. }
  assert (LN : length (dm_diffs x) = length (filter (fun d => negb (is_context d)) (concat (map snd hs)))).
  { destruct L as [_ _ L3 _ _ _]. destruct (deref_all_ok _ _ _ L3) as [E _]. congruence. }
  rewrite LN. set (ds := filter _ _) in *. assert (E1 : map d_applied ds = repeat false (length ds) /\ map d_unsaved ds = repeat false (length ds)).
  { clear -PL. induction PL as [|d l (A & B) _ [IH1 IH2]]; [split; reflexivity|]. cbn. rewrite A, B, IH1, IH2. auto. }
  split.
  - exists hs. exact L.
  - exact N.
  - exists ds. split; [apply L|]. split; [apply E1|]. rewrite combine_self. rewrite (proj2 E1). clear. induction (length ds); cbn; congruence.
  - reflexivity.
  - rewrite S1. symmetry. apply count_repeat.
  - rewrite S3. discriminate.
Qed.
