(** C101: what a slot finds that is connected to a signal of the list. *)
From Coq Require Import String Permutation.
From Verif Require Import Base QtStr Diff Save Parser SpecHistory SpecPatch SpecParse Blend SpecBlend Info ModelList Life Signals SpecSignals SpecList PHistory PModelState PropsParse PSave PList PListOpen PKin PSignals.
Local Open Scope Z_scope.

(** The moments are those of the list: the same calls are defined and lead to the same state, the signals are those that the list
    logs, and each slot finds the list with its own signal as the last one. Every signal is true of the list at its moment, but
    for a selection of something that is not there: exactly then the selection that is announced is not the one of the list. *)
Theorem C101_signals_are_true :
  forall o s h s', (forall l, Permutation (os_sort o l) l) -> occur o s h = Ok s' ->
  exists tr, occur_at o s h = Ok (s', tr) /\ ml_out s' = ml_out s ++ map fst tr /\ in_order (ml_out s) tr /\
    (Forall (fun q => truthful (fst q) (snd q)) tr <-> as_asked h s').
Proof.
  intros o s h s' HP E. rewrite <- occur_plain in E. unfold plainly in E. destruct (occur_at o s h) as [[s1 tr]| |] eqn:EA; cbn [bind fst] in E; try discriminate. injection E as ->. exists tr. split; [reflexivity|].
  assert (G : traced truthful itself s (occur_at o s h) -> as_asked h s' -> ml_out s' = ml_out s ++ map fst tr /\ in_order (ml_out s) tr /\ (Forall (fun q => truthful (fst q) (snd q)) tr <-> as_asked h s')).
  { intros T A. destruct (T s' tr EA) as (T1 & T2 & T3). split; [exact T1|]. split; [exact T2|]. split; [intros _; exact A|intros _; exact T3]. }
  destruct h; try (apply G; [cbn [occur_at]|exact I]);
    first [ apply true_next | apply true_previous | apply true_next_file | apply true_previous_file | apply true_apply | apply true_apply_all | apply true_act_apply | apply true_act_unapply | apply true_act_all
          | apply true_slot_save | apply true_first, true_save | apply true_first, true_save_all | apply true_clear | apply true_show | apply true_first, true_compare, HP | apply true_finished, HP
          | apply true_first, true_open, HP | apply true_first, true_blend, HP | apply true_first, true_parse, HP | idtac ].
  - cbn [occur_at] in EA. destruct (pair_moments _ _ _ _ _ EA) as (s1 & O1 & S1 & S2 & C). destruct (closing _ _ _ _ C) as (bar & -> & TB & O2 & C1 & C2 & _). rewrite O2, O1. split; [reflexivity|].
    split; [cbn; rewrite O1, <- app_assoc; repeat split|]. cbn [as_asked]. split.
    + intros F. pose proof (Forall_inv F) as F1. cbn in F1. destruct F1. congruence.
    + intros A. constructor; [split; cbn; congruence|]. constructor; [exact TB|constructor].
  - cbn [occur_at] in EA. destruct (single_moments _ _ _ _ EA) as (s1 & O1 & S1 & C). destruct (closing _ _ _ _ C) as (bar & -> & TB & O2 & C1 & C2 & _). rewrite O2, O1. split; [reflexivity|].
    split; [cbn; rewrite O1, <- app_assoc; repeat split|]. cbn [as_asked]. split.
    + intros F. pose proof (Forall_inv F) as F1. cbn in F1. congruence.
    + intros A. constructor; [cbn; congruence|]. constructor; [exact TB|constructor].
  - apply traced_mutely. intros s1 E. unfold set_read_write in E. destruct (Bool.eqb _ _); [injection E as <-; reflexivity|]. apply out_update in E. exact E.
  - apply traced_mutely. intros s1 E. injection E as <-. reflexivity.
  - unfold refresh_at. apply traced_bind. intros i _. apply true_mode.
  - unfold swap_at. apply traced_bind. intros i _. destruct (in_mode i); first [apply true_mode|apply true_end; reflexivity].
  - destruct file; [apply true_first, true_end; reflexivity|apply true_first, true_open, HP].
  - apply traced_mutely. intros s1 E. step E. injection E as <-. eapply out_blend; exact E0.
  - apply traced_mutely. intros s1 E. step E. injection E as <-. reflexivity.
Qed.
Print Assumptions C101_signals_are_true.

(** * A list that is shown *)
Definition near (s a : mlist) : Prop :=
  ml_heap a = ml_heap s /\ ml_models a = ml_models s /\ ml_sel a = ml_sel s /\ ml_diff a = ml_diff s /\ ml_index a = ml_index s /\ ml_rw a = ml_rw s.
Lemma near_shows s a v : near s a -> shows s v -> shows a v.
Proof. intros (H1 & H2 & H3 & H4 & H5 & H6). now apply shows_ext. Qed.
Definition late {A} (fin : A -> mlist) (w : telling A) : Prop := forall a tr, w = Ok (a, tr) -> Forall (fun q => near (fin a) (snd q)) tr.
Lemma late_bind {A B} (fin : B -> mlist) (w : res A) (f : A -> telling B) : (forall a, w = Ok a -> late fin (f a)) -> late fin (bind w f).
Proof. intros F. destruct w as [a| |]; cbn [bind]; [apply F; reflexivity| |]; intros b tr E; discriminate. Qed.
Lemma late_closing g s : late itself (on s <- tell g s; on s <- status_bar_at s; mutely (update_actions s)).
Proof.
  intros s' tr E. destruct (closing _ _ _ _ E) as (bar & -> & _ & _ & C1 & C2 & C3 & C4 & C5 & C6). unfold itself, near. repeat constructor; cbn; congruence.
Qed.
Lemma late_announce s : late itself (announce_at s). Proof. apply late_closing. Qed.
Lemma late_announce_difference s : late itself (announce_difference_at s). Proof. apply late_closing. Qed.
Lemma late_next s : late itself (slot_next_difference_at s).
Proof.
  unfold slot_next_difference_at. apply late_bind. intros [m x] _. apply late_bind. intros [y [k|]] _; [apply late_announce_difference|]. apply late_bind. intros s1 _. destruct (ml_sel s1).
  - apply late_bind. intros s2 _. apply late_announce.
  - apply late_bind. intros s2 _. apply late_bind. intros s3 _. apply late_announce.
Qed.
Lemma late_previous s : late itself (slot_previous_difference_at s).
Proof.
  unfold slot_previous_difference_at. apply late_bind. intros [m x] _. apply late_bind. intros [y [k|]] _; [apply late_announce_difference|]. apply late_bind. intros s1 _. destruct (ml_sel s1).
  - apply late_bind. intros s2 _. apply late_announce.
  - apply late_bind. intros s2 _. apply late_bind. intros s3 _. apply late_announce.
Qed.
Lemma late_next_file s : late itself (slot_next_model_at s).
Proof. unfold slot_next_model_at. apply late_bind. intros s1 _. apply late_bind. intros s2 _. apply late_bind. intros s3 _. apply late_announce. Qed.
Lemma late_previous_file s : late itself (slot_previous_model_at s).
Proof. unfold slot_previous_model_at. apply late_bind. intros s1 _. apply late_bind. intros s2 _. apply late_bind. intros s3 _. apply late_announce. Qed.
Lemma late_pair s m d : late itself (slot_selection_changed_at s m d).
Proof. intros s' tr E. destruct (pair_moments _ _ _ _ _ E) as (s1 & _ & _ & _ & C). eapply late_closing. exact C. Qed.
Lemma late_single s d : late itself (slot_difference_changed_at s d).
Proof. intros s' tr E. destruct (single_moments _ _ _ _ E) as (s1 & _ & _ & C). eapply late_closing. exact C. Qed.
Lemma near_refl s : near s s. Proof. repeat split. Qed.
Lemma near_trans a b c : near a b -> near b c -> near a c. Proof. unfold near. intuition congruence. Qed.
Lemma late_tell g s : late itself (tell g s).
Proof. intros a tr E. injection E as <- <-. constructor; [apply near_refl|constructor]. Qed.
Lemma late_apply s b : late itself (slot_apply_difference_at s b).
Proof. unfold slot_apply_difference_at. apply late_bind. intros [m x] _. apply late_bind. intros y _. apply late_tell. Qed.
Lemma late_apply_all s b : late itself (slot_apply_all_at s b).
Proof. unfold slot_apply_all_at. apply late_bind. intros [m x] _. apply late_bind. intros y _. apply late_tell. Qed.
Lemma near_update s s' : update_actions s = Ok s' -> near s' s.
Proof. intros E. apply same_update in E as (U1 & U2 & U3 & U4 & U5 & U6). unfold near. auto 10. Qed.
Lemma after_inv {A B} (w : telling A) (f : A -> telling B) b tr : after w f = Ok (b, tr) -> exists a t u, w = Ok (a, t) /\ f a = Ok (b, u) /\ tr = t ++ u.
Proof.
  unfold after. destruct w as [[a t]| |]; cbn [bind fst snd]; try discriminate. destruct (f a) as [[b' u]| |] eqn:E; cbn [bind fst snd]; try discriminate. intros H. injection H as <- <-. eauto 10.
Qed.
Lemma mutely_inv {A} (r : res A) a tr : mutely r = Ok (a, tr) -> r = Ok a /\ tr = [].
Proof. unfold mutely. destruct r; cbn [bind]; try discriminate. intros H. injection H as <- <-. auto. Qed.
Lemma late_updating (w : telling mlist) : late itself w -> late itself (on s <- w; mutely (update_actions s)).
Proof.
  intros W s' tr E. destruct (after_inv _ _ _ _ E) as (s1 & t & u & E1 & E2 & ->). apply mutely_inv in E2 as [E2 ->]. rewrite app_nil_r. eapply Forall_impl; [|apply (W _ _ E1)]. intros q Q. eapply near_trans; [apply near_update; exact E2|exact Q].
Qed.
Lemma late_save e s m : late of_pair (save_model_at e s m).
Proof.
  unfold save_model_at. apply late_bind. intros x _. apply late_bind. intros o _. cbv zeta. intros [s' b] tr E. destruct (after_inv _ _ _ _ E) as (s1 & t & u & E1 & E2 & ->). apply mutely_inv in E2 as [E2 ->]. injection E2 as <- <-. rewrite app_nil_r. unfold of_pair. cbn [fst].
  destruct (so_error o); [exact (late_tell _ _ _ _ E1)|]. apply mutely_inv in E1 as [_ ->]. constructor.
Qed.
Lemma late_slot_save e s : late itself (slot_save_at e s).
Proof.
  unfold slot_save_at. destruct (ml_sel s); [|intros a tr E; apply mutely_inv in E as [_ ->]; constructor]. intros s' tr E. destruct (after_inv _ _ _ _ E) as ([s1 b] & t & u & E1 & E2 & ->).
  pose proof (late_save _ _ _ _ _ E1) as F. unfold of_pair in F. cbn [fst] in F. cbv zeta in E2. assert (N : near s' s1) by (destruct (ml_has_save s1); injection E2 as <- <-; repeat split).
  apply Forall_app. split; [eapply Forall_impl; [|exact F]; intros q Q; eapply near_trans; [exact N|exact Q]|exact (late_tell _ _ _ _ E2)].
Qed.
Lemma save_shows e s v l i m f : shows s v -> ml_models s = Some l -> nth_error l i = Some m -> nth_error (v_flags v) i = Some f ->
  forall s' b, save_model e s m = Ok (s', b) ->
  shows s' (with_flags v (update (v_flags v) i (after_save e f))) /\ ml_models s' = Some l /\ b = (negb (unsaved_flags f) || save_goes_on e)%bool.
Proof.
  intros SH ML N NF s' b E. destruct (shows_facts s v SH) as (l' & m0 & x0 & d & f0 & y & F). pose proof (fa_tidy _ _ _ _ _ _ _ _ F) as T. assert (l' = l) as -> by (destruct T; congruence).
  destruct (tidy_at _ _ _ _ _ T N) as (x & f' & X & F' & M). rewrite NF in F'. injection F' as <-. unfold save_model in E. rewrite X in E. cbn [bind] in E.
  destruct (ms_save e x _ _ M) as (o & EO & MO & D & SE & IX & RT & ER). rewrite EO in E. cbn [bind] in E.
  assert (NE : near (put_model s m (so_model o)) s') by (destruct (so_error o); injection E as <- <-; repeat split).
  split; [|split].
  - eapply near_shows; [exact NE|]. apply shows_split. split; [destruct SH; assumption|]. exists l, m0. split; [apply tidy_put; [exact T|exact N|exact MO]|]. split; [apply F|].
    destruct (Nat.eq_dec m m0) as [->|NM].
    + assert (x = x0) as -> by (pose proof (fa_model _ _ _ _ _ _ _ _ F); congruence). exists (so_model o), d. split; [eapply model_put; exact X|]. rewrite D, SE, IX. repeat split; apply F.
    + exists x0, d. split; [rewrite model_put_other by exact NM; apply F|]. repeat split; apply F.
  - destruct NE as (_ & -> & _). exact ML.
  - rewrite <- surjective_pairing in RT. destruct (so_error o); injection E as <- <-; exact RT.
Qed.
Lemma update_mid {A} (a b : list A) x y : update (a ++ x :: b) (length a) y = a ++ y :: b.
Proof. induction a as [|z a IH]; cbn; [reflexivity|now rewrite IH]. Qed.
Lemma nth_mid {A} (a b : list A) x : nth_error (a ++ x :: b) (length a) = Some x.
Proof. rewrite nth_error_app2 by lia. now rewrite Nat.sub_diag. Qed.
Lemma staged_saves envs v l : forall l2 l1 fs1 fs2 k s, l = l1 ++ l2 -> length l1 = length fs1 -> length l2 = length fs2 ->
  shows s (with_flags v (fs1 ++ fs2)) -> ml_models s = Some l ->
  forall s' b tr, save_models_at envs k s l2 = Ok ((s', b), tr) ->
  Forall (fun q => exists j, shows (snd q) (with_flags v (fs1 ++ firstn j (after_save_all envs k fs2) ++ skipn j fs2))) tr.
Proof.
  induction l2 as [|m l2 IH]; intros l1 fs1 fs2 k s EL L1 L2 SH ML s' b tr E; cbn [save_models_at] in E.
  - apply mutely_inv in E as [_ ->]. constructor.
  - destruct fs2 as [|f fs2]; [discriminate L2|]. injection L2 as L2. destruct (after_inv _ _ _ _ E) as ([s1 ok] & t & u & E1 & E2 & ->).
    assert (E1' : save_model (envs k) s m = Ok (s1, ok)) by (rewrite <- save_plain, E1; reflexivity).
    destruct (save_shows (envs k) s _ l (length l1) m f SH ML) with (s' := s1) (b := ok) as (S1 & M1 & B1).
    { rewrite EL. apply nth_mid. } { cbn [with_flags v_flags]. rewrite L1. apply nth_mid. } { exact E1'. }
    cbn [with_flags v_flags v_model v_diff v_rw] in S1. rewrite L1, update_mid in S1. apply Forall_app. split.
    + eapply Forall_impl; [|apply (late_save _ _ _ _ _ E1)]. intros q Q. exists 1%nat. eapply near_shows; [exact Q|]. cbn [after_save_all firstn skipn app]. exact S1.
    + cbn [after_save_all]. rewrite <- B1. destruct ok; [|apply mutely_inv in E2 as [_ ->]; constructor].
      specialize (IH (l1 ++ [m]) (fs1 ++ [after_save (envs k) f]) fs2 (S k) s1). rewrite <- !app_assoc in IH. cbn [app] in IH.
      specialize (IH EL ltac:(rewrite !app_length; cbn; lia) L2 S1 M1 _ _ _ E2). eapply Forall_impl; [|exact IH]. intros q (j & Q). exists (S j). cbn [firstn skipn app]. rewrite <- app_assoc in Q. exact Q.
Qed.
Lemma run_call o s op h : call_of s op = Ok h -> occur o s h = run_lop s op.
Proof.
  destruct op; cbn [call_of run_lop]; intros E; try (injection E as <-; reflexivity).
  - repeat (step E; cbn [bind]). injection E as <-. reflexivity.
  - repeat (step E; cbn [bind]). injection E as <-. reflexivity.
Qed.
Lemma call_there s op s' : run_lop s op = Ok s' -> exists h, call_of s op = Ok h.
Proof.
  destruct op; cbn [call_of run_lop]; intros E; try (eexists; reflexivity).
  - repeat (step E; cbn [bind]). eexists; reflexivity.
  - repeat (step E; cbn [bind]). eexists; reflexivity.
Qed.
(** On a list that shows something, every question can be asked during every signal of every call, and the answers fit together:
    they are those of the list after the call, or, where a call does two things, of the list between them. *)
Theorem C101_every_question_is_answered :
  forall o s v op v', shows s v -> vstep v op = Some v' ->
  exists h s' tr, call_of s op = Ok h /\ occur_at o s h = Ok (s', tr) /\ run_lop s op = Ok s' /\ observed s' v' /\
    Forall (fun q => exists w, stage op v v' w /\ observed (snd q) w /\ answers (snd q)) tr.
Proof.
  intros o s v op v' SH V. destruct (run_lop_ok s v op v' SH V) as (s' & E & (S' & _)). destruct (call_there s op s' E) as (h & H). assert (EO := run_call o s op h H). rewrite E in EO.
  pose proof EO as EP. rewrite <- occur_plain in EP. unfold plainly in EP. destruct (occur_at o s h) as [[s1 tr]| |] eqn:EA; cbn [bind fst] in EP; try discriminate. injection EP as ->.
  exists h, s', tr. split; [exact H|]. split; [exact EA|]. split; [exact E|]. split; [now apply observed_ok|].
  assert (G : Forall (fun q => exists w, stage op v v' w /\ shows (snd q) w) tr -> Forall (fun q => exists w, stage op v v' w /\ observed (snd q) w /\ answers (snd q)) tr).
  { intros F. eapply Forall_impl; [|exact F]. intros q (w & ST & SW). apply observed_ok in SW. exists w. split; [exact ST|]. split; [exact SW|]. destruct SW as [B1 B2 B3 B4 B5 B6 _ _]. repeat split; eexists; eassumption. }
  apply G. clear G. assert (L : (forall w, w = v' -> stage op v v' w) -> late itself (occur_at o s h) -> Forall (fun q => exists w, stage op v v' w /\ shows (snd q) w) tr).
  { intros ST LA. eapply Forall_impl; [|apply (LA _ _ EA)]. intros q Q. exists v'. split; [auto|]. eapply near_shows; [exact Q|exact S']. }
  destruct op; cbn [call_of] in H; try (injection H as <-; apply L; [intros w ->; exact eq_refl|cbn [occur_at]];
    first [apply late_next|apply late_previous|apply late_next_file|apply late_previous_file|apply late_apply|apply late_apply_all|apply late_updating, late_apply_all|apply late_slot_save|idtac]).
  - repeat step H. injection H as <-. apply L; [intros w ->; exact eq_refl|]. apply late_pair.
  - repeat step H. injection H as <-. apply L; [intros w ->; exact eq_refl|]. apply late_single.
  - injection H as <-. clear L. cbn [occur_at] in EA. unfold slot_action_apply_at in EA. step EA. destruct (after_inv _ _ _ _ EA) as (s2 & t & u & E2 & E3 & ->). apply Forall_app. split.
    + destruct (d_applied a) eqn:AP; [apply mutely_inv in E2 as [_ ->]; constructor|]. eapply Forall_impl; [|apply (late_apply _ _ _ _ E2)]. intros q Q. exists (apply_here true v). split; [left; reflexivity|]. eapply near_shows; [exact Q|].
      destruct (apply_ok s v true SH) as (s3 & A1 & A2 & _). rewrite <- apply_plain, E2 in A1. cbn in A1. injection A1 as <-. exact A2.
    + assert (U : late itself (on s <- slot_next_difference_at s2; mutely (update_actions s))) by (apply late_updating, late_next).
      eapply Forall_impl; [|apply (U _ _ E3)]. intros q Q. exists v'. split; [right; reflexivity|]. eapply near_shows; [exact Q|exact S'].
  - injection H as <-. clear L. cbn [occur_at] in EA. unfold slot_action_unapply_at in EA. step EA. destruct (after_inv _ _ _ _ EA) as (s2 & t & u & E2 & E3 & ->). apply Forall_app. split.
    + destruct (d_applied a) eqn:AP; [|apply mutely_inv in E2 as [_ ->]; constructor]. eapply Forall_impl; [|apply (late_apply _ _ _ _ E2)]. intros q Q. exists (apply_here false v). split; [left; reflexivity|]. eapply near_shows; [exact Q|].
      destruct (apply_ok s v false SH) as (s3 & A1 & A2 & _). rewrite <- apply_plain, E2 in A1. cbn in A1. injection A1 as <-. exact A2.
    + assert (U : late itself (on s <- slot_previous_difference_at s2; mutely (update_actions s))) by (apply late_updating, late_previous).
      eapply Forall_impl; [|apply (U _ _ E3)]. intros q Q. exists v'. split; [right; reflexivity|]. eapply near_shows; [exact Q|exact S'].
  - injection H as <-. clear L. cbn [vstep] in V. injection V as <-. cbn [occur_at] in EA. unfold first_of in EA. destruct (after_inv _ _ _ _ EA) as ([s2 b] & t & u & E2 & E3 & ->). apply mutely_inv in E3 as [_ ->]. rewrite app_nil_r.
    unfold save_all_models_at in E2. destruct (Z.eqb _ _); [apply mutely_inv in E2 as [_ ->]; constructor|]. unfold the_list in E2. destruct (ml_models s) as [l|] eqn:ML; [|discriminate]. cbn [bind] in E2.
    pose proof SH as SH0. apply shows_split in SH0 as (_ & l' & m' & T & _). assert (l' = l) as -> by (destruct T; congruence). assert (LL := tidy_len _ _ _ T).
    assert (W : shows s (with_flags v ([] ++ v_flags v))) by (destruct v; exact SH).
    eapply Forall_impl; [|exact (staged_saves envs v l l [] [] (v_flags v) 0 s eq_refl eq_refl LL W ML _ _ _ E2)]. intros q (j & Q). eexists. split; [exists j; reflexivity|]. exact Q.
  - intros a tr' E'. apply mutely_inv in E' as [_ ->]. constructor.
Qed.
Print Assumptions C101_every_question_is_answered.

(** * Opening *)
Lemma parse_moments o s diff p ms i s' b tr : parse_ready o diff p ms -> ml_info s = Some i -> parse_diff_output_at o s diff = Ok ((s', b), tr) ->
  b = true /\ shows s' (opened ms false (ml_rw s)) /\ ml_rw s' = ml_rw s /\
  exists pre bar a, tr = pre ++ [(bar, a)] /\ map fst pre = DiffString diff :: (if po_malformed p then [Error Malformed] else []) /\ near s' a /\
    is_bar bar /\
    Forall (fun q => ml_sel (snd q) = ml_sel s /\ ml_diff (snd q) = ml_diff s /\ ml_models (snd q) = match fst q with Error _ => ml_models s' | _ => ml_models s end) pre.
Proof.
  intros R I E. assert (Q : parse_diff_output o s diff = Ok (s', b)) by (rewrite <- parse_plain, E; reflexivity). destruct (parse_output_ok o s diff p ms i R I) as (s1 & l & m & E1 & T1 & A1 & D1 & _ & _ & _ & RW & _).
  rewrite Q in E1. injection E1 as -> ->. split; [reflexivity|]. split; [rewrite <- RW; eapply shows_opened; eauto|]. split; [exact RW|]. destruct R as (_ & RP & RM).
  unfold parse_diff_output_at in E. destruct (after_inv _ _ _ _ E) as (s2 & t & u & E2 & E3 & ->). injection E2 as <- <-. rewrite RP in E3. cbn [bind] in E3. rewrite RM in E3. unfold the_info in E3. cbn [with_models emit ml_info] in E3. rewrite I in E3. cbn [bind with_info ml_models] in E3.
  destruct (after_inv _ _ _ _ E3) as (s3 & t3 & u3 & E4 & E5 & ->). step E5. step E5. step E5. destruct (after_inv _ _ _ _ E5) as (s6 & t6 & u6 & E6 & E7 & ->). apply mutely_inv in E7 as [E7 ->]. injection E7 as <-. injection E6 as <- <-.
  assert (M : ml_models a0 = ml_models s3).
  { match goal with H1 : first_model s3 = Ok ?x, H2 : to_first_difference ?x = Ok a0 |- _ => destruct (first_model_carry _ _ H1) as (_ & _ & _ & C1 & _); destruct (to_first_carry _ _ H2) as (_ & _ & _ & C2 & _) end. congruence. }
  eexists _, _, _. split; [rewrite app_nil_r, app_assoc; reflexivity|]. split; [destruct (po_malformed p); [injection E4 as <- <-|apply mutely_inv in E4 as [_ ->]]; reflexivity|]. split; [repeat split|]. split; [do 5 eexists; reflexivity|].
  apply Forall_app. split; [repeat constructor|]. destruct (po_malformed p); [|apply mutely_inv in E4 as [_ ->]; constructor]. injection E4 as <- <-. constructor; [|constructor]. split; [reflexivity|]. split; [reflexivity|]. refine (eq_trans _ (eq_sym M)). reflexivity.
Qed.
Definition same_act (s a : mlist) : Prop := ml_act a = ml_act s /\ ml_has_save a = ml_has_save s.
Lemma right_act s a v : same_act s a -> actions_right s v -> actions_right a v.
Proof. intros [A1 A2] [R1 R2 R3 R4 R5 R6 R7 R8 R9]. split; rewrite ?A1, ?A2; assumption. Qed.
Lemma right_all s v (tr : list moment) : actions_right s v -> Forall (fun q => same_act s (snd q)) tr -> Forall (fun q => actions_right (snd q) v) tr.
Proof. intros R F. eapply Forall_impl; [|exact F]. intros q Q. apply (right_act s); [exact Q|exact R]. Qed.
Lemma show_moments s s' tr : show_at s = Ok (s', tr) -> near s' s /\ map fst tr = [ModelsChanged (ml_models s'); SetSelection (ml_sel s') (ml_diff s')] /\ Forall (fun q => near s' (snd q)) tr /\ Forall (fun q => same_act s' (snd q)) tr.
Proof.
  unfold show_at. intros E. step E. unfold the_list in E0. destruct (ml_models s) eqn:M; [|discriminate]. injection E0 as ->. injection E as <- <-. cbn. rewrite M. split; [repeat split; auto|]. split; [reflexivity|]. split; repeat constructor.
Qed.

Lemma models_blend_model s m t s' : blend_model s m t = Ok s' -> ml_models s' = ml_models s.
Proof. unfold blend_model. intros H. step H. step H. step H. apply to_first_carry in H. apply first_model_carry in E1. destruct H as (_ & _ & _ & H & _), E1 as (_ & _ & _ & E1 & _). rewrite H, E1. reflexivity. Qed.
Lemma models_blend_dir o url : forall l s b r, blend_dir o url s l b = Ok r -> ml_models (fst r) = ml_models s.
Proof.
  induction l as [|m l IH]; intros s b r H; cbn [blend_dir] in H; [injection H as <-; reflexivity|]. step H. step H. apply models_blend_model in E0. apply IH in H. congruence.
Qed.
Lemma models_blend o s url r : blend_original o s url = Ok r -> ml_models (fst r) = ml_models s.
Proof.
  unfold blend_original. intros H. destruct (os_is_dir o url); [step H; eapply models_blend_dir; exact H|]. destruct (os_is_file o url); [|injection H as <-; reflexivity].
  step H. step H. step H. injection H as <-. eapply models_blend_model; exact E1.
Qed.
Lemma models_depth i : forall l s s', depth_and_applied i s l = Ok s' -> ml_models s' = ml_models s.
Proof. induction l as [|m l IH]; intros s s' H; cbn [depth_and_applied] in H; [injection H as <-; reflexivity|]. step H. step H. apply IH in H. rewrite H. reflexivity. Qed.
Lemma shows_seen s v g : shows s v -> seen v (g, s).
Proof. intros SW. apply observed_ok in SW. split; [exact SW|]. destruct SW as [B1 B2 B3 B4 B5 B6 _ _]. repeat split; eexists; eassumption. Qed.
Lemma near_all s' v tr : shows s' v -> Forall (fun q => near s' (snd q)) tr -> Forall (seen v) tr.
Proof. intros SH F. eapply Forall_impl; [|exact F]. intros [g a] Q. apply shows_seen. eapply near_shows; [exact Q|exact SH]. Qed.
Lemma update_near s s' : update_actions s = Ok s' -> near s' s.
Proof. intros E. apply same_update in E as (U1 & U2 & U3 & U4 & U5 & U6). repeat split; congruence. Qed.
(** openDiff(), parseAndOpenDiff() of a text that is read: while the old list goes and the new one is read, the selection is the one of
    before; from the status bar on, every question is answered by the new list. *)
Theorem C101_while_opening :
  forall o s diff p ms i, (forall l, Permutation (os_sort o l) l) -> parse (os_sort o) (split_lines diff) = Ok p -> po_models p = Some ms -> ml_info s = Some i ->
  exists s' pre bar post, occur_at o s (HParseAndOpen diff) = Ok (s', pre ++ post) /\ observed s' (opened ms false (ml_rw s)) /\
    map fst pre = ModelsChanged (emptied_list (ml_models s)) :: Status Parsing :: DiffString diff :: (if po_malformed p then [Error Malformed] else []) /\
    Forall (still_old s s' (emptied_list (ml_models s))) pre /\
    map fst post = [bar; ModelsChanged (ml_models s'); SetSelection (ml_sel s') (ml_diff s'); Status FinishedParsing] /\ is_bar bar /\
    Forall (seen (opened ms false (ml_rw s))) post /\ Forall (fun q => actions_right (snd q) (opened ms false (ml_rw s))) (tl post).
Proof.
  intros o s diff p ms i HP E EM I. destruct (parse_and_open_ok o s diff p ms i (conj HP (conj E EM)) I) as (s' & E1 & SH & AR & _).
  assert (EP := E1). rewrite <- open_plain in EP. unfold plainly in EP. destruct (parse_and_open_at o s diff) as [[[s1 b1] trace]| |] eqn:ET; cbn [bind fst] in EP; try discriminate. injection EP as -> ->. assert (EA := ET). remember trace as tr eqn:TR in EA.
  unfold parse_and_open_at in EA. destruct (after_inv _ _ _ _ EA) as (a1 & t1 & u1 & A1 & A2 & ->). injection A1 as <- <-. destruct (after_inv _ _ _ _ A2) as (a2 & t2 & u2 & A3 & A4 & ->). injection A3 as <- <-.
  destruct (after_inv _ _ _ _ A4) as ([a3 b3] & t3 & u3 & A5 & A6 & ->). set (s0 := emit (Status Parsing) _) in A5.
  assert (I0 : ml_info s0 = Some i) by (unfold s0; destruct (ml_models s); exact I).
  destruct (parse_moments o s0 diff p ms i a3 b3 t3 (conj HP (conj E EM)) I0 A5) as (-> & SH3 & RW3 & pre & bar & a & -> & PR & NA & IB & F).
  cbv beta iota in A6. step A6. destruct (after_inv _ _ _ _ A6) as (a4 & t4 & u4 & A7 & A8 & ->). destruct (after_inv _ _ _ _ A8) as (a5 & t5 & u5 & A9 & A10 & ->). injection A9 as <- <-. apply mutely_inv in A10 as [A10 ->]. injection A10 as <-.
  apply update_near in E0. destruct (show_moments _ _ _ A7) as (N4 & T4 & F4 & F5).
  assert (R0 : ml_rw s0 = ml_rw s) by (unfold s0; destruct (ml_models s); reflexivity). rewrite R0 in SH3.
  assert (M0 : ml_models s0 = emptied_list (ml_models s) /\ ml_sel s0 = ml_sel s /\ ml_diff s0 = ml_diff s) by (unfold s0; destruct (ml_models s) eqn:M; cbn; rewrite ?M; auto).
  assert (NN : ml_models (emit (Status FinishedParsing) a4) = ml_models a3) by (destruct N4 as (_ & N4 & _), E0 as (_ & E0 & _); cbn; congruence).
  assert (EO : occur_at o s (HParseAndOpen diff) = Ok (emit (Status FinishedParsing) a4, trace)) by (cbn [occur_at]; unfold first_of, after; rewrite ET; cbn; rewrite app_nil_r; reflexivity).
  exists (emit (Status FinishedParsing) a4). eexists (_ :: _ :: pre), bar, ((bar, a) :: t4 ++ [_]). split; [rewrite EO; subst trace; cbn [app]; rewrite <- !app_assoc; reflexivity|].
  split; [apply observed_ok, SH|]. split; [cbn [map fst]; rewrite PR; destruct (ml_models s) eqn:MM; cbn [with_models ml_models emptied_list]; rewrite ?MM; reflexivity|].
  assert (OLD : forall g, (forall e, g <> Error e) -> forall t, ml_sel t = ml_sel s -> ml_diff t = ml_diff s -> ml_models t = emptied_list (ml_models s) -> still_old s (emit (Status FinishedParsing) a4) (emptied_list (ml_models s)) (g, t)).
  { intros g G t X1 X2 X3. split; [exact X1|]. split; [exact X2|]. cbn [fst snd]. destruct g; try exact X3. exfalso. eapply G. reflexivity. }
  split; [constructor; [|constructor]|].
  - apply OLD; [discriminate|..]; destruct (ml_models s) eqn:MM; cbn; rewrite ?MM; reflexivity.
  - apply OLD; [discriminate|..]; destruct (ml_models s) eqn:MM; cbn; rewrite ?MM; reflexivity.
  - eapply Forall_impl; [|exact F]. intros q (Q1 & Q2 & Q3). destruct M0 as (M1 & M2 & M3). unfold still_old. rewrite Q1, Q2, Q3, M1, M2, M3, NN. auto.
  - split; [cbn [map fst]; rewrite map_app; unfold moment in *; rewrite T4; reflexivity|]. split; [exact IB|]. split.
    + constructor; [apply shows_seen; eapply near_shows; [exact NA|exact SH3]|].
      apply Forall_app. split; [|constructor; [apply shows_seen, SH|constructor]]. apply (near_all a4); [|exact F4]. eapply near_shows; [|exact SH]. repeat split.
    + cbn [tl]. apply (right_all (emit (Status FinishedParsing) a4)); [exact AR|]. apply Forall_app. split; [exact F5|]. repeat constructor.
Qed.
Print Assumptions C101_while_opening.
Lemma old_moment s s' l g t : (forall e, g <> Error e) -> ml_sel t = ml_sel s -> ml_diff t = ml_diff s -> ml_models t = l -> still_old s s' l (g, t).
Proof. intros G X1 X2 X3. split; [exact X1|]. split; [exact X2|]. cbn [fst snd]. destruct g; try exact X3. exfalso. eapply G. reflexivity. Qed.
(** The diff process has found differences: as above, but the models of before are in the list until the new ones have been read. *)
Theorem C101_while_diff_finishes :
  forall o s p ms i st out err, (forall l, Permutation (os_sort o l) l) -> parse (os_sort o) (split_lines out) = Ok p -> po_models p = Some ms -> ml_info s = Some i -> ml_process s = true ->
  exists s' pre bar post, occur_at o s (HFinished true st out err) = Ok (s', pre ++ post) /\ observed s' (opened ms false (ml_rw s)) /\
    map fst pre = Status Parsing :: DiffString out :: (if po_malformed p then [Error Malformed] else []) /\
    Forall (still_old s s' (ml_models s)) pre /\
    map fst post = [bar; ModelsChanged (ml_models s'); SetSelection (ml_sel s') (ml_diff s'); Status FinishedParsing] /\ is_bar bar /\
    Forall (seen (opened ms false (ml_rw s))) post /\ Forall (fun q => actions_right (snd q) (opened ms false (ml_rw s))) (tl post).
Proof.
  intros o s p ms i st out err HP E EM I PR0. destruct (process_ok o s p ms i st out err PR0 I (conj HP (conj E EM))) as (s' & E1 & SH & AR & _).
  assert (EP := E1). rewrite <- finished_plain in EP. unfold plainly in EP. destruct (slot_diff_process_finished_at o s true st out err) as [[s1 trace]| |] eqn:ET; cbn [bind fst] in EP; try discriminate. injection EP as ->. assert (EA := ET). remember trace as tr eqn:TR in EA.
  unfold slot_diff_process_finished_at in EA. rewrite PR0 in EA. cbn [negb] in EA. destruct (after_inv _ _ _ _ EA) as (a1 & t1 & u1 & A1 & A2 & TT). apply mutely_inv in A2 as [A2 ->]. injection A2 as <-. rewrite app_nil_r in TT. rewrite TT in TR. clear TT EA tr.
  destruct (after_inv _ _ _ _ A1) as (a2 & t2 & u2 & A3 & A4 & ->). injection A3 as <- <-. destruct (after_inv _ _ _ _ A4) as ([a3 b3] & t3 & u3 & A5 & A6 & ->). set (s0 := emit (Status Parsing) s) in *.
  destruct (parse_moments o s0 out p ms i a3 b3 t3 (conj HP (conj E EM)) I A5) as (-> & SH3 & RW3 & pre & bar & a & -> & PR & NA & IB & F).
  cbn [negb] in A6. destruct (after_inv _ _ _ _ A6) as (a4 & t4 & u4 & A7 & A8 & ->). injection A8 as <- <-. step A7. step A7. step A7.
  match goal with H : (if mode_eqb _ _ then Ok a3 else _) = Ok ?y, U : update_actions ?y = Ok _ |- _ => rename H into E2; rename U into E3; rename y into y2 end.
  assert (M1 : ml_models y2 = ml_models a3) by (destruct (mode_eqb _ _); [injection E2 as <-; reflexivity|]; step E2; injection E2 as <-; eapply models_blend; eassumption).
  apply update_near in E3. destruct (show_moments _ _ _ A7) as (N4 & T4 & F4 & F5).
  assert (NN : ml_models a4 = ml_models a3) by (destruct N4 as (_ & N4 & _), E3 as (_ & E3 & _); congruence).
  exists (with_process (emit (Status FinishedParsing) a4) false), ((Status Parsing, s0) :: pre), bar, ((bar, a) :: t4 ++ [(Status FinishedParsing, emit (Status FinishedParsing) a4)]).
  split; [cbn [occur_at]; rewrite ET; rewrite <- TR; cbn [app]; rewrite <- !app_assoc; reflexivity|].
  split; [apply observed_ok, SH|]. split; [cbn [map fst]; rewrite PR; reflexivity|]. split; [constructor; [apply old_moment; [discriminate|reflexivity..]|]|].
  - eapply Forall_impl; [|exact F]. intros q (Q1 & Q2 & Q3). unfold still_old. rewrite Q1, Q2, Q3. cbn [with_process emit ml_models]. rewrite NN. auto.
  - assert (SH4 : shows a4 (opened ms false (ml_rw s))) by (eapply near_shows; [|exact SH]; repeat split).
    split; [cbn [map fst]; rewrite map_app; unfold moment in *; rewrite T4; reflexivity|]. split; [exact IB|]. split.
    + constructor; [apply shows_seen; eapply near_shows; [exact NA|exact SH3]|].
      apply Forall_app. split; [now apply (near_all a4)|]. constructor; [|constructor]. apply shows_seen. eapply near_shows; [|exact SH4]. repeat split.
    + cbn [tl]. apply (right_all (with_process (emit (Status FinishedParsing) a4) false)); [exact AR|]. apply Forall_app. split; [exact F5|]. repeat constructor.
Qed.
Print Assumptions C101_while_diff_finishes.
(** openFileAndDiff(), openDirAndDiff(): the status bar still tells of differences that are not applied; then they are as the options say. *)
Theorem C101_while_blending :
  forall o s p ms i, (forall l, Permutation (os_sort o l) l) -> ml_info s = Some i -> parse (os_sort o) (split_lines (os_read o (in_local_destination i))) = Ok p -> po_models p = Some ms ->
  exists s' pre bar a post, occur_at o s HOpenAndBlend = Ok (s', pre ++ (bar, a) :: post) /\ observed s' (opened ms (in_applied i) (ml_rw s)) /\
    map fst pre = ModelsChanged (emptied_list (ml_models s)) :: DiffString (os_read o (in_local_destination i)) :: (if po_malformed p then [Error Malformed] else []) /\
    Forall (still_old s s' (emptied_list (ml_models s))) pre /\
    is_bar bar /\ seen (opened ms false (ml_rw s)) (bar, a) /\
    map fst post = (if (os_is_dir o (in_local_source i) || os_is_file o (in_local_source i))%bool then [ModelsChanged (ml_models s'); SetSelection (ml_sel s') (ml_diff s')] else [Error NotApplied]) /\
    Forall (seen (opened ms (in_applied i) (ml_rw s))) post /\
    ((os_is_dir o (in_local_source i) || os_is_file o (in_local_source i))%bool = true -> Forall (fun q => actions_right (snd q) (opened ms (in_applied i) (ml_rw s))) post).
Proof.
  intros o s p ms i HP I E EM. destruct (open_and_blend_ok o s p ms i I (conj HP (conj E EM))) as (s' & E1 & SH & _ & _ & _ & _ & AR). set (ok := (os_is_dir o (in_local_source i) || os_is_file o (in_local_source i))%bool) in *.
  assert (EP := E1). rewrite <- blend_plain in EP. unfold plainly in EP. destruct (open_and_blend_at o s) as [[[s1 b1] trace]| |] eqn:ET; cbn [bind fst] in EP; try discriminate. injection EP as -> ->. assert (EA := ET). remember trace as tr eqn:TR in EA.
  unfold open_and_blend_at in EA. destruct (after_inv _ _ _ _ EA) as (s0 & t0 & u0 & A0 & A1 & ->). clear EA. assert (I0 : ml_info s0 = Some i) by (injection A0 as <- _; destruct (ml_models s); exact I).
  assert (M0 : ml_models s0 = emptied_list (ml_models s) /\ ml_sel s0 = ml_sel s /\ ml_diff s0 = ml_diff s /\ ml_rw s0 = ml_rw s /\ t0 = [(ModelsChanged (emptied_list (ml_models s)), s0)]) by (injection A0 as <- <-; destruct (ml_models s) eqn:M; cbn; rewrite ?M; auto 10).
  clear A0. destruct M0 as (M1 & M2 & M3 & M4 & ->). unfold the_info in A1 at 1. rewrite I0 in A1. cbn [bind] in A1.
  destruct (after_inv _ _ _ _ A1) as ([a3 b3] & t3 & u3 & A5 & A6 & ->). destruct (parse_moments o s0 _ p ms i a3 b3 t3 (conj HP (conj E EM)) I0 A5) as (-> & SH3 & RW3 & pre & bar & a & -> & PR & NA & IB & F).
  rewrite M4 in SH3. cbn [negb] in A6. step A6. step A6. step A6. step A6. destruct a4 as [s4 ok4]. apply models_blend in E4. apply models_depth in E3. cbn [fst] in E4.
  assert (G : near s' s4 /\ map fst u3 = (if ok then [ModelsChanged (ml_models s'); SetSelection (ml_sel s') (ml_diff s')] else [Error NotApplied]) /\ Forall (fun q => near s' (snd q)) u3 /\ Forall (fun q => same_act s' (snd q)) u3).
  { destruct ok4; cbn [negb] in A6.
    - step A6. destruct (after_inv _ _ _ _ A6) as (a6 & t6 & u6 & A7 & A8 & ->). apply mutely_inv in A8 as [A8 ->]. injection A8 as Z1 Z2. rewrite <- Z2. rewrite Z1 in A7. rewrite app_nil_r. destruct (show_moments _ _ _ A7) as (N4 & T4 & F4 & F5). split; [|split; [assumption|split; assumption]].
      match goal with U : update_actions s4 = Ok _ |- _ => apply update_near in U; destruct U as (U1 & U2 & U3 & U4 & U5 & U6) end. destruct N4 as (V1 & V2 & V3 & V4 & V5 & V6). repeat split; congruence.
    - destruct (after_inv _ _ _ _ A6) as (a6 & t6 & u6 & A7 & A8 & ->). apply mutely_inv in A8 as [A8 ->]. injection A8 as Z1 Z2. rewrite <- Z2. rewrite Z1 in A7. injection A7 as <- <-. split; [repeat split|]. split; [reflexivity|]. split; repeat constructor. }
  destruct G as (G1 & G2 & G3 & G4). assert (NN : ml_models s' = ml_models a3) by (destruct G1 as (_ & G1 & _); congruence).
  exists s', ((ModelsChanged (emptied_list (ml_models s)), s0) :: pre), bar, a, u3. split; [cbn [occur_at]; unfold first_of, after; rewrite ET; cbn; rewrite app_nil_r, <- TR; cbn [app]; rewrite <- !app_assoc; reflexivity|].
  split; [apply observed_ok, SH|]. split; [cbn [map fst]; rewrite PR; reflexivity|]. split.
  - constructor; [apply old_moment; [discriminate|assumption..]|]. eapply Forall_impl; [|exact F]. intros q (Q1 & Q2 & Q3). unfold still_old. rewrite Q1, Q2, Q3, NN, M1, M2, M3. auto.
  - split; [exact IB|]. split; [apply shows_seen; eapply near_shows; [exact NA|exact SH3]|]. split; [exact G2|]. split; [now apply (near_all s')|]. intros OK. rewrite OK in AR. apply (right_all s'); [apply AR|exact G4].
Qed.
Print Assumptions C101_while_blending.
(** * Opening again *)
Definition sel_alive (s : mlist) : Prop := match ml_sel s with Some m => exists x, model_of s m = Ok x | None => True end.
Lemma alive_answers s l : sel_alive s -> ml_models s = Some l -> is_ok (any_unsaved s l) -> answers s.
Proof.
  intros A M U. unfold answers, current_model, find_model, the_list, current_difference, difference_count, applied_count, has_unsaved_changes. rewrite M. cbn [bind]. unfold sel_alive in A.
  split; [eexists; reflexivity|]. destruct (ml_sel s) as [m|]; [destruct A as [x ->]; cbn [bind]|]; (split; [eexists; reflexivity|]; split; [eexists; reflexivity|]; split; [eexists; reflexivity|exact U]).
Qed.
Lemma parse_answers o s diff p ms i s' b tr : parse_ready o diff p ms -> ml_info s = Some i -> ml_models s = Some [] -> sel_alive s -> parse_diff_output_at o s diff = Ok ((s', b), tr) ->
  Forall (fun q => answers (snd q)) tr.
Proof.
  intros R I M A E. destruct (parse_moments _ _ _ _ _ _ _ _ _ R I E) as (_ & SH & _ & pre & bar & a & TR & PR & NA & _ & _). subst tr. apply Forall_app. split.
  - destruct R as (HP & RP & RM). destruct (fresh_states _ _ _ _ HP RP RM) as [F N].
    unfold parse_diff_output_at in E. destruct (after_inv _ _ _ _ E) as (s2 & t & u & E2 & E3 & TT). injection E2 as <- <-. rewrite RP in E3. cbn [bind] in E3. rewrite RM in E3. unfold the_info in E3. cbn [with_models emit ml_info] in E3. rewrite I in E3. cbn [bind with_info ml_models] in E3.
    cbn [emit ml_models ml_heap] in E3. rewrite M in E3. cbn [delete_all] in E3.
    destruct (after_inv _ _ _ _ E3) as (s3 & t3 & u3 & E4 & E5 & TT3). step E5. step E5. step E5. destruct (after_inv _ _ _ _ E5) as (s6 & t6 & u6 & E6 & E7 & TT6). apply mutely_inv in E7 as [E7 ->]. injection E6 as _ T6.
    rewrite TT3, TT6, <- T6, app_nil_r, app_assoc in TT. apply app_inj_tail in TT as [-> _]. apply Forall_app. split.
    + constructor; [|constructor]. apply (alive_answers _ []); [exact A|exact M|eexists; reflexivity].
    + destruct (po_malformed p); [injection E4 as _ <-|apply mutely_inv in E4 as [_ ->]; constructor]. constructor; [|constructor]. cbn [snd]. set (s9 := emit (Error Malformed) _).
      apply (alive_answers s9 (seq (length (ml_heap s)) (length ms))); [|reflexivity|].
      * unfold sel_alive in *. change (ml_sel s9) with (ml_sel s). destruct (ml_sel s) as [m|]; [|exact Logic.I]. destruct A as [x X]. exists x. unfold model_of in *. change (ml_heap s9) with (ml_heap s ++ map Some ms).
        destruct (nth_error (ml_heap s) m) eqn:NM; [|discriminate]. rewrite nth_error_app1 by (eapply nth_some_lt; exact NM). rewrite NM. exact X.
      * exists (existsb unsaved_flags (map blank ms)). apply any_unsaved_ok. apply (tidy_new (ml_heap s) ms s9 blank); [reflexivity|reflexivity|exact F].
  - constructor; [|constructor]. eapply shows_seen with (g := bar). eapply near_shows; [exact NA|exact SH].
Qed.
(** Opening a diff in a list that shows another one: every question is answered at every moment, though not as one would expect (below). *)
Theorem C101_opening_again :
  forall o s v diff p ms i, shows s v -> (forall l, Permutation (os_sort o l) l) -> parse (os_sort o) (split_lines diff) = Ok p -> po_models p = Some ms -> ml_info s = Some i ->
  exists s' tr, occur_at o s (HParseAndOpen diff) = Ok (s', tr) /\ observed s' (opened ms false (ml_rw s)) /\ Forall (fun q => answers (snd q)) tr.
Proof.
  intros o s v diff p ms i SV HP E EM I. assert (SH1 := SV). apply shows_split in SH1 as (_ & l & m & T & AM & AD).
  destruct (C101_while_opening o s diff p ms i HP E EM I) as (s' & pre & bar & post & O & OB & PR & PO & TP & _ & SP & _). exists s', (pre ++ post). split; [exact O|]. split; [exact OB|].
  apply Forall_app. split; [|eapply Forall_impl; [|exact SP]; intros q Q; apply Q]. clear SP.
  assert (ML : ml_models s = Some l) by apply T. assert (AL : sel_alive s) by (unfold sel_alive; destruct AM as (A1 & A2 & A3); rewrite A2; destruct (tidy_at _ _ _ _ _ T A1) as (x & f & X & _); eauto).
  cbn [occur_at] in O. unfold first_of in O. destruct (after_inv _ _ _ _ O) as ([a b] & t & u & O1 & O2 & TT). apply mutely_inv in O2 as [_ ->]. rewrite app_nil_r in TT.
  unfold parse_and_open_at in O1. destruct (after_inv _ _ _ _ O1) as (a1 & t1 & u1 & A1 & A2 & ->). injection A1 as <- <-. destruct (after_inv _ _ _ _ A2) as (a2 & t2 & u2 & A3 & A4 & ->). injection A3 as <- <-.
  destruct (after_inv _ _ _ _ A4) as ([a3 b3] & t3 & u3 & A5 & A6 & ->). rewrite ML in A5, TT. set (s0 := emit (Status Parsing) _) in A5, TT.
  assert (F3 := parse_answers o s0 diff p ms i a3 b3 t3 (conj HP (conj E EM)) I eq_refl AL A5).
  destruct (parse_moments o s0 diff p ms i a3 b3 t3 (conj HP (conj E EM)) I A5) as (_ & _ & _ & pre3 & bar3 & a9 & T3 & P3 & _).
  subst t3. assert (L1 := f_equal (@length signal) PR). assert (L2 := f_equal (@length signal) P3). rewrite map_length in L1, L2. cbn [length] in L1, L2.
  apply Forall_app in F3 as [F3 _]. cbn [app] in TT. rewrite <- !app_assoc in TT.
  destruct pre as [|q1 [|q2 pre]]; try discriminate L1. cbn [app] in TT. injection TT as -> -> TT. cbn [length] in L1. assert (LL : length pre = length pre3) by (refine (eq_add_S _ _ (eq_trans (eq_add_S _ _ L1) _)); f_equal; rewrite L2; reflexivity). destruct (app_same_length _ _ _ _ LL TT) as [-> _].
  constructor; [|constructor; [|exact F3]]; (apply (alive_answers _ []); [exact AL|reflexivity|eexists; reflexivity]).
Qed.
Print Assumptions C101_opening_again.

(** * The actions *)
Lemma act_first s s' : first_model s = Ok s' -> ml_act s' = ml_act s.
Proof. unfold first_model. intros H. step H. destruct a; [discriminate|]. injection H as <-. reflexivity. Qed.
Lemma act_last s s' : last_model s = Ok s' -> ml_act s' = ml_act s.
Proof. unfold last_model. intros H. step H. destruct (rev a); [discriminate|]. injection H as <-. reflexivity. Qed.
Lemma act_next s s' : next_model s = Ok s' -> ml_act s' = ml_act s.
Proof. unfold next_model. intros H. step H. destruct (Z.ltb _ _); [step H|]; injection H as <-; reflexivity. Qed.
Lemma act_prev s s' : prev_model s = Ok s' -> ml_act s' = ml_act s.
Proof. unfold prev_model. intros H. destruct (Z.ltb _ _); [|injection H as <-; reflexivity]. step H. destruct (Z.ltb _ _); [step H|]; injection H as <-; reflexivity. Qed.
Lemma act_to_first s s' : to_first_difference s = Ok s' -> ml_act s' = ml_act s.
Proof. unfold to_first_difference. intros H. step H. destruct a as [m x]. step H. destruct a as [y k]. injection H as <-. reflexivity. Qed.
Lemma act_to_last s s' : to_last_difference s = Ok s' -> ml_act s' = ml_act s.
Proof. unfold to_last_difference. intros H. step H. destruct a as [m x]. step H. destruct a as [y k]. injection H as <-. reflexivity. Qed.
Lemma act_select s m d r : select_in s m d = Ok r -> ml_act (fst r) = ml_act s.
Proof.
  unfold select_in. intros H. step H. destruct d as [[m' k]|]; [destruct (Nat.eqb _ _)|];
    try (destruct (set_selected_difference _ _) as [y b]); injection H as <-; reflexivity.
Qed.
Definition keep_act {A} (a0 : actions) (w : telling A) : Prop := forall a tr, w = Ok (a, tr) -> Forall (fun q => ml_act (snd q) = a0) tr.
Lemma keep_bind {A B} a0 (w : res A) (f : A -> telling B) : (forall a, w = Ok a -> keep_act a0 (f a)) -> keep_act a0 (bind w f).
Proof. intros F. destruct w as [a| |]; cbn [bind]; [apply F; reflexivity| |]; intros b tr E; discriminate. Qed.
Lemma keep_closing g s : keep_act (ml_act s) (on s <- tell g s; on s <- status_bar_at s; mutely (update_actions s)).
Proof. intros s' tr E. destruct (closing _ _ _ _ E) as (bar & -> & _). repeat constructor. Qed.
Lemma keep_next s : keep_act (ml_act s) (slot_next_difference_at s).
Proof.
  unfold slot_next_difference_at. apply keep_bind. intros [m x] _. apply keep_bind. intros [y [k|]] _; [exact (keep_closing _ (with_diff (put_model s m y) (Some (m, k))))|]. apply keep_bind. intros s1 E1. apply act_next in E1. change (ml_act s1 = ml_act s) in E1. destruct (ml_sel s1).
  - apply keep_bind. intros s2 E2. apply act_to_first in E2. rewrite <- E1, <- E2. apply keep_closing.
  - apply keep_bind. intros s2 E2. apply keep_bind. intros s3 E3. apply act_last in E2. apply act_to_last in E3. rewrite <- E1, <- E2, <- E3. apply keep_closing.
Qed.
Lemma keep_previous s : keep_act (ml_act s) (slot_previous_difference_at s).
Proof.
  unfold slot_previous_difference_at. apply keep_bind. intros [m x] _. apply keep_bind. intros [y [k|]] _; [exact (keep_closing _ (with_diff (put_model s m y) (Some (m, k))))|]. apply keep_bind. intros s1 E1. apply act_prev in E1. change (ml_act s1 = ml_act s) in E1. destruct (ml_sel s1).
  - apply keep_bind. intros s2 E2. apply act_to_last in E2. rewrite <- E1, <- E2. apply keep_closing.
  - apply keep_bind. intros s2 E2. apply keep_bind. intros s3 E3. apply act_first in E2. apply act_to_first in E3. rewrite <- E1, <- E2, <- E3. apply keep_closing.
Qed.
Lemma keep_next_file s : keep_act (ml_act s) (slot_next_model_at s).
Proof.
  unfold slot_next_model_at. apply keep_bind. intros s1 E1. apply act_next in E1. apply keep_bind. intros s2 E2. apply keep_bind. intros s3 E3. apply act_to_first in E3.
  assert (E4 : ml_act s2 = ml_act s1) by (destruct (ml_sel s1); [injection E2 as <-; reflexivity|now apply act_last in E2]). rewrite <- E1, <- E4, <- E3. apply keep_closing.
Qed.
Lemma keep_previous_file s : keep_act (ml_act s) (slot_previous_model_at s).
Proof.
  unfold slot_previous_model_at. apply keep_bind. intros s1 E1. apply act_prev in E1. apply keep_bind. intros s2 E2. apply keep_bind. intros s3 E3. apply act_to_first in E3.
  assert (E4 : ml_act s2 = ml_act s1) by (destruct (ml_sel s1); [injection E2 as <-; reflexivity|now apply act_first in E2]). rewrite <- E1, <- E4, <- E3. apply keep_closing.
Qed.
Lemma keep_single s d : keep_act (ml_act s) (slot_difference_changed_at s d).
Proof.
  unfold slot_difference_changed_at. cbv zeta. destruct (ml_sel (with_diff s d)) as [m|]; [|intros ? ? E; discriminate]. apply keep_bind. intros [s1 ok] E1. apply act_select in E1. cbn in E1. apply keep_bind. intros s2 E2.
  assert (E3 : ml_act s2 = ml_act s) by (destruct ok; [injection E2 as <-; exact E1|apply act_to_first in E2; congruence]). rewrite <- E3. apply keep_closing.
Qed.
Lemma keep_apply s b : keep_act (ml_act s) (slot_apply_difference_at s b).
Proof. unfold slot_apply_difference_at. apply keep_bind. intros [m x] _. apply keep_bind. intros y _ s' tr E. injection E as <- <-. repeat constructor. Qed.
Lemma keep_apply_all s b : keep_act (ml_act s) (slot_apply_all_at s b).
Proof. unfold slot_apply_all_at. apply keep_bind. intros [m x] _. apply keep_bind. intros y _ s' tr E. injection E as <- <-. repeat constructor. Qed.
Lemma keep_after (a0 : actions) (w : telling mlist) f : keep_act a0 w -> (forall s1 tr, w = Ok (s1, tr) -> keep_act a0 (f s1)) -> keep_act (A := mlist) a0 (after w f).
Proof. intros K F s' tr E. destruct (after_inv _ _ _ _ E) as (s1 & t & u & E1 & E2 & ->). apply Forall_app. split; [exact (K _ _ E1)|exact (F _ _ E1 _ _ E2)]. Qed.
Lemma keep_mute {A} a0 (r : res A) : keep_act a0 (mutely r).
Proof. intros a tr E. apply mutely_inv in E as [_ ->]. constructor. Qed.
Lemma apply_act s b s1 tr : slot_apply_difference_at s b = Ok (s1, tr) -> ml_act s1 = ml_act s.
Proof. unfold slot_apply_difference_at. intros H. step H. destruct a as [m x]. step H. injection H as <- _. reflexivity. Qed.
(** The calls that move the selection or apply: the actions are set at the very end. *)
Definition moves_or_applies (h : happening) : bool :=
  match h with
  | HNextDifference | HPreviousDifference | HNextModel | HPreviousModel | HSelectDifference _ | HApply _ | HApplyAll _ | HActApply | HActUnapply | HActApplyAll _ => true
  | _ => false
  end.
(** While a slot is told of a move, or that differences have been applied, the actions are enabled as before the call. *)
Theorem C101_actions_lag :
  forall o s h s' tr, moves_or_applies h = true -> occur_at o s h = Ok (s', tr) -> Forall (fun q => ml_act (snd q) = ml_act s) tr.
Proof.
  intros o s h s' tr MV E. destruct h; try discriminate MV; cbn [occur_at] in E; revert s' tr E;
    first [apply keep_next|apply keep_previous|apply keep_next_file|apply keep_previous_file|apply keep_single|apply keep_apply|apply keep_apply_all|idtac].
  - unfold slot_action_apply_at. apply keep_bind. intros d _. apply keep_after; [destruct (d_applied d); [apply keep_mute|apply keep_apply]|]. intros s1 t E1. apply keep_after; [|intros; apply keep_mute].
    assert (A1 : ml_act s1 = ml_act s) by (destruct (d_applied d); [apply mutely_inv in E1 as [E1 _]; injection E1 as <-; reflexivity|now apply apply_act in E1]). rewrite <- A1. apply keep_next.
  - unfold slot_action_unapply_at. apply keep_bind. intros d _. apply keep_after; [destruct (d_applied d); [apply keep_apply|apply keep_mute]|]. intros s1 t E1. apply keep_after; [|intros; apply keep_mute].
    assert (A1 : ml_act s1 = ml_act s) by (destruct (d_applied d); [now apply apply_act in E1|apply mutely_inv in E1 as [E1 _]; injection E1 as <-; reflexivity]). rewrite <- A1. apply keep_previous.
  - unfold slot_action_apply_all_at. apply keep_after; [apply keep_apply_all|intros; apply keep_mute].
Qed.
Print Assumptions C101_actions_lag.

(** * What the claim does not say *)
From Verif Require Import PropsList.
Definition at_moment (k : nat) (r : telling mlist) (P : signal -> mlist -> Prop) : Prop := exists s' tr g t, r = Ok (s', tr) /\ nth_error tr k = Some (g, t) /\ P g t.
Lemma at_moment_by k (r : telling mlist) (P : signal -> mlist -> Prop) (b : signal -> mlist -> bool) : (forall g t, b g t = true -> P g t) -> match r with Ok (_, tr) => match nth_error tr k with Some (g, t) => b g t | None => false end | _ => false end = true -> at_moment k r P.
Proof. intros B E. destruct r as [[s' tr]| |]; try discriminate. destruct (nth_error tr k) as [[g t]|] eqn:N; [|discriminate]. exists s', tr, g, t. auto. Qed.
Definition not_ok {A} (r : res A) : bool := match r with UB _ => true | _ => false end.
Definition says (r : res Z) (n : Z) : bool := match r with Ok k => Z.eqb k n | _ => false end.
Lemma says_ok r n : says r n = true -> r = Ok n. Proof. destruct r; try discriminate. intros E. apply Z.eqb_eq in E. now rewrite E. Qed.
Lemma not_ok_ub {A} (r : res A) : not_ok r = true -> exists w, r = UB w. Proof. destruct r; try discriminate. eauto. Qed.
(** The output of diff with a line after it that is no part of a diff: read, with a complaint. *)
Definition trailing : str := text_of ["--- a.txt	2020"; "+++ b.txt	2020"; "@@ -1,1 +1,1 @@"; "-a"; "+b"; "trailing"]%string.
Definition shown_meanwhile : mlist := match parse_and_open world running two_files with Ok (s, _) => s | _ => running end.
(** False of the code: modelsChanged() of the first list that is opened comes when there is no list, and a slot that asks for the
    current model dereferences a null pointer; that of the next one comes when the list is empty, and the current model is none of the
    list, but its differences are counted; while a slot is told that the output of diff was malformed, the selected model has been
    deleted; and of a text that cannot be read a slot is told when there is no list any more. *)
Theorem C101_questions_refuted :
  at_moment 0 (occur_at world ready (HParseAndOpen two_files)) (fun g t => g = ModelsChanged None /\ exists w, current_model t = UB w) /\
  at_moment 0 (occur_at world three (HParseAndOpen two_files)) (fun g t => g = ModelsChanged (Some []) /\ current_model t = Ok (-1) /\ model_count t = 0 /\ difference_count t = Ok 2) /\
  (observed shown_meanwhile three_view /\
   at_moment 2 (occur_at world shown_meanwhile (HFinished true NormalExit trailing [])) (fun g t => g = Error Malformed /\ (exists w, difference_count t = UB w) /\ (exists w, current_difference t = UB w) /\ exists w, applied_count t = UB w)) /\
  at_moment 3 (occur_at world three (HParseAndOpen (text_of ["no diff"%string]))) (fun g t => g = Error NotParsed /\ exists w, current_model t = UB w).
Proof.
  split; [|split; [|split; [split|]]].
  - apply at_moment_by with (b := fun g t => (match g with ModelsChanged None => true | _ => false end && not_ok (current_model t))%bool); [|vm_compute; reflexivity].
    intros g t B. apply andb_prop in B as [B1 B2]. split; [destruct g as [| | | | |[?|]| | | |]; try discriminate; reflexivity|now apply not_ok_ub].
  - apply at_moment_by with (b := fun g t => (match g with ModelsChanged (Some []) => true | _ => false end && says (current_model t) (-1) && Z.eqb (model_count t) 0 && says (difference_count t) 2)%bool); [|vm_compute; reflexivity].
    intros g t B. apply andb_prop in B as [B B4]. apply andb_prop in B as [B B3]. apply andb_prop in B as [B1 B2]. split; [destruct g as [| | | | |[[|? ?]|]| | | |]; try discriminate; reflexivity|]. split; [now apply says_ok|]. split; [now apply Z.eqb_eq|now apply says_ok].
  - destruct (open_two running default_info eq_refl eq_refl) as (s2 & E2 & SH & _). unfold shown_meanwhile. rewrite E2. now apply observed_ok.
  - apply at_moment_by with (b := fun g t => (match g with Error Malformed => true | _ => false end && not_ok (difference_count t) && not_ok (current_difference t) && not_ok (applied_count t))%bool); [|vm_compute; reflexivity].
    intros g t B. apply andb_prop in B as [B B4]. apply andb_prop in B as [B B3]. apply andb_prop in B as [B1 B2]. split; [destruct g; try discriminate; match goal with |- Error ?e = _ => destruct e; try discriminate; reflexivity end|]. repeat split; now apply not_ok_ub.
  - apply at_moment_by with (b := fun g t => (match g with Error NotParsed => true | _ => false end && not_ok (current_model t))%bool); [|vm_compute; reflexivity].
    intros g t B. apply andb_prop in B as [B1 B2]. split; [destruct g; try discriminate; match goal with |- Error ?e = _ => destruct e; try discriminate; reflexivity end|now apply not_ok_ub].
Qed.
Print Assumptions C101_questions_refuted.

(** False of the code: a slot that is told that the last file has been selected finds the action "next file" enabled and "previous
    file" disabled; a slot that is told that the differences have been applied finds "apply all" enabled. *)
Definition wrongly_enabled (s : mlist) (v : view) : Prop := observed s v /\ ~ actions_right s v.
Theorem C101_actions_refuted :
  at_moment 0 (occur_at world three HNextModel) (fun g t => (exists m d, g = SetSelection m d) /\ wrongly_enabled t (mk_view (v_flags three_view) 1 0 true)) /\
  at_moment 0 (occur_at world three (HActApplyAll true)) (fun g t => g = AppliedAll true /\ ac_apply_all (ml_act t) = true /\ applied_count t = difference_count t).
Proof.
  destruct C40_example as (_ & SH & _). split.
  - assert (V : vstep three_view LNextFile = Some (mk_view (v_flags three_view) 1 0 true)) by reflexivity.
    destruct (C101_every_question_is_answered world three three_view LNextFile _ SH V) as (h & s' & tr & C & O & _ & _ & F). injection C as <-.
    assert (X : match occur_at world three HNextModel with Ok (_, tr) => match nth_error tr 0 with Some (SetSelection _ _, t) => ac_next_file (ml_act t) | _ => false end | _ => false end = true) by (vm_compute; reflexivity).
    rewrite O in X. destruct tr as [|[g t] tr]; [discriminate X|]. cbn [nth_error] in X. destruct g as [m d| | | | | | | | |]; try discriminate X.
    exists s', ((SetSelection m d, t) :: tr), (SetSelection m d), t. split; [exact O|]. split; [reflexivity|]. split; [eauto|]. pose proof (Forall_inv F) as (w & W & OB & _). cbn [stage] in W. subst w. split; [exact OB|].
    intros [_ R _ _ _ _ _ _ _]. rewrite X in R. vm_compute in R. discriminate R.
  - apply at_moment_by with (b := fun g t => (match g with AppliedAll true => true | _ => false end && ac_apply_all (ml_act t) && says (applied_count t) 2 && says (difference_count t) 2)%bool); [|vm_compute; reflexivity].
    intros g t B. apply andb_prop in B as [B B4]. apply andb_prop in B as [B B3]. apply andb_prop in B as [B1 B2]. split; [destruct g as [| | | |[|]| | | | |]; try discriminate; reflexivity|]. split; [exact B2|]. rewrite (says_ok _ _ B3), (says_ok _ _ B4). reflexivity.
Qed.
Print Assumptions C101_actions_refuted.

(** * Cases that meet the hypotheses *)
Definition answered (q : moment) : bool := (says (current_model (snd q)) 1 && says (difference_count (snd q)) 1 && Z.eqb (model_count (snd q)) 2)%bool.
Definition ran {A} (r : res A) : bool := match r with Ok _ => true | _ => false end.
Example C101_example :
  shows three three_view /\ vstep three_view LNextFile = Some (mk_view (v_flags three_view) 1 0 true) /\
  (exists i, ml_info three = Some i) /\ (exists s', occur world three HNextModel = Ok s') /\
  match occur_at world three HNextModel with Ok (_, tr) => (length tr, forallb answered tr) | _ => (0%nat, false) end = (2%nat, true) /\
  (exists p ms, parse (os_sort world) (split_lines trailing) = Ok p /\ po_models p = Some ms /\ po_malformed p = true) /\ ml_process shown_meanwhile = true.
Proof.
  destruct C40_example as (_ & SH & _). split; [exact SH|]. split; [reflexivity|]. split; [destruct three_info as (i & I & _); eauto|].
  split; [assert (X : ran (occur world three HNextModel) = true) by (vm_compute; reflexivity); destruct (occur world three HNextModel); try discriminate; eauto|]. split; [vm_compute; reflexivity|]. split; [|vm_compute; reflexivity].
  assert (X : match parse (os_sort world) (split_lines trailing) with Ok p => match po_models p with Some _ => po_malformed p | None => false end | _ => false end = true) by (vm_compute; reflexivity).
  destruct (parse (os_sort world) (split_lines trailing)) as [p| |]; try discriminate. destruct (po_models p) as [ms|] eqn:PM; [|discriminate]. exists p, ms. auto.
Qed.
