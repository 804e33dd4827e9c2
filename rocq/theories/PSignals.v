(** The functions with their moments are the functions without; the moments of each. *)
From Coq Require Import String Permutation.
From Verif Require Import Base QtStr Diff Save Parser SpecHistory SpecPatch SpecParse Blend SpecBlend Info ModelList Life Signals SpecSignals SpecList PHistory PModelState PropsParse PList PListOpen PKin.
Local Open Scope Z_scope.

(** * Without the moments *)
Definition plainly {A} (w : telling A) : res A := do r <- w; Ok (fst r).
Lemma plainly_after {A B} (w : telling A) (f : A -> telling B) : plainly (after w f) = do a <- plainly w; plainly (f a).
Proof. unfold plainly, after. destruct w as [[a t]| |]; cbn [bind fst snd]; try reflexivity. destruct (f a) as [[b u]| |]; reflexivity. Qed.
Lemma plainly_bind {A B} (w : res A) (f : A -> telling B) : plainly (bind w f) = do a <- w; plainly (f a).
Proof. destruct w; reflexivity. Qed.
Lemma plainly_mutely {A} (r : res A) : plainly (mutely r) = r.
Proof. now destruct r. Qed.
Lemma plainly_tell g s : plainly (tell g s) = Ok (emit g s). Proof. reflexivity. Qed.
Lemma bind_ext {A B} (w : res A) (f g : A -> res B) : (forall a, f a = g a) -> bind w f = bind w g.
Proof. intros H. destruct w; cbn [bind]; auto. Qed.
Lemma bind_assoc {A B C} (w : res A) (f : A -> res B) (g : B -> res C) : bind (bind w f) g = bind w (fun a => bind (f a) g).
Proof. now destruct w. Qed.
Ltac strip := repeat first
  [ reflexivity
  | rewrite plainly_after | rewrite plainly_bind | rewrite plainly_mutely | rewrite plainly_tell
  | progress cbn [bind fst snd]
  | match goal with |- bind ?w _ = bind ?w _ => apply bind_ext; intros ? end
  | match goal with |- context [let '(_, _) := ?a in _] => is_var a; destruct a end ].
Ltac flag := match goal with |- context [if negb ?b then _ else _] => is_var b; destruct b; cbn [negb] | |- context [if ?b then _ else _] => is_var b; destruct b end.
Lemma bar_plain s : plainly (status_bar_at s) = status_bar s.
Proof. unfold status_bar_at, status_bar. strip. Qed.
Lemma announce_plain s : plainly (announce_at s) = announce s.
Proof. unfold announce_at, announce. strip. rewrite bar_plain. strip. Qed.
Lemma announce_difference_plain s : plainly (announce_difference_at s) = announce_difference s.
Proof. unfold announce_difference_at, announce_difference. strip. rewrite bar_plain. strip. Qed.
Lemma pair_plain s m d : plainly (slot_selection_changed_at s m d) = slot_selection_changed s m d.
Proof. unfold slot_selection_changed_at, slot_selection_changed. strip. destruct m; [|reflexivity]. strip. rewrite bar_plain. strip. Qed.
Lemma single_plain s d : plainly (slot_difference_changed_at s d) = slot_difference_changed s d.
Proof. unfold slot_difference_changed_at, slot_difference_changed. cbv zeta. destruct (ml_sel _); [|reflexivity]. strip. rewrite bar_plain. strip. Qed.
Lemma previous_file_plain s : plainly (slot_previous_model_at s) = slot_previous_model s.
Proof. unfold slot_previous_model_at, slot_previous_model. strip. apply announce_plain. Qed.
Lemma next_file_plain s : plainly (slot_next_model_at s) = slot_next_model s.
Proof. unfold slot_next_model_at, slot_next_model. strip. apply announce_plain. Qed.
Lemma previous_plain s : plainly (slot_previous_difference_at s) = slot_previous_difference s.
Proof.
  unfold slot_previous_difference_at, slot_previous_difference. strip. destruct o; [apply announce_difference_plain|]. strip. destruct (ml_sel _); strip; apply announce_plain.
Qed.
Lemma next_plain s : plainly (slot_next_difference_at s) = slot_next_difference s.
Proof.
  unfold slot_next_difference_at, slot_next_difference. strip. destruct o; [apply announce_difference_plain|]. strip. destruct (ml_sel _); strip; apply announce_plain.
Qed.
Lemma apply_plain s b : plainly (slot_apply_difference_at s b) = slot_apply_difference s b.
Proof. unfold slot_apply_difference_at, slot_apply_difference. strip. Qed.
Lemma apply_all_plain s b : plainly (slot_apply_all_at s b) = slot_apply_all s b.
Proof. unfold slot_apply_all_at, slot_apply_all. strip. Qed.
Lemma act_apply_plain s : plainly (slot_action_apply_at s) = slot_action_apply s.
Proof. unfold slot_action_apply_at, slot_action_apply. strip. destruct (d_applied _); strip; rewrite ?apply_plain; strip; rewrite next_plain; strip. Qed.
Lemma act_unapply_plain s : plainly (slot_action_unapply_at s) = slot_action_unapply s.
Proof. unfold slot_action_unapply_at, slot_action_unapply. strip. destruct (d_applied _); strip; rewrite ?apply_plain; strip; rewrite previous_plain; strip. Qed.
Lemma act_all_plain s b : plainly (slot_action_apply_all_at s b) = slot_action_apply_all s b.
Proof. unfold slot_action_apply_all_at, slot_action_apply_all. strip. rewrite apply_all_plain. strip. Qed.
Lemma save_plain e s m : plainly (save_model_at e s m) = save_model e s m.
Proof. unfold save_model_at, save_model. strip. destruct (so_error _); strip. Qed.
Lemma slot_save_plain e s : plainly (slot_save_at e s) = slot_save e s.
Proof. unfold slot_save_at, slot_save. destruct (ml_sel s); [|reflexivity]. strip. rewrite save_plain. strip. Qed.
Lemma saves_plain envs : forall l k s, plainly (save_models_at envs k s l) = save_models envs k s l.
Proof. induction l as [|m l IH]; intros k s; [reflexivity|]. cbn [save_models_at save_models]. strip. rewrite save_plain. strip. destruct b; [apply IH|reflexivity]. Qed.
Lemma save_all_plain envs s : plainly (save_all_models_at envs s) = save_all_models envs s.
Proof. unfold save_all_models_at, save_all_models. destruct (Z.eqb _ _); [reflexivity|]. strip. apply saves_plain. Qed.
Lemma clear_plain s : plainly (clear_at s) = Ok (clear s). Proof. reflexivity. Qed.
Lemma parse_plain o s diff : plainly (parse_diff_output_at o s diff) = parse_diff_output o s diff.
Proof.
  unfold parse_diff_output_at, parse_diff_output. strip. destruct (ml_models (with_info _ _)); [|reflexivity]. destruct (po_malformed _); strip.
Qed.
Lemma show_plain s : plainly (show_at s) = show s.
Proof. unfold show_at, show. strip. Qed.
Lemma open_plain o s diff : plainly (parse_and_open_at o s diff) = parse_and_open o s diff.
Proof. unfold parse_and_open_at, parse_and_open. strip. rewrite clear_plain. strip. rewrite parse_plain. strip. flag; strip. rewrite show_plain. strip. Qed.
Lemma open_diff_plain o s file : plainly (open_diff_at o s file) = open_diff o s file.
Proof. destruct file; [reflexivity|apply open_plain]. Qed.
Lemma blend_plain o s : plainly (open_and_blend_at o s) = open_and_blend o s.
Proof.
  unfold open_and_blend_at, open_and_blend. strip. rewrite clear_plain. strip. rewrite parse_plain. strip. flag; strip. flag; strip. rewrite show_plain. strip.
Qed.
Lemma mode_plain s : plainly (compare_mode_at s) = Ok (compare_mode s).
Proof. reflexivity. Qed.
Lemma compare_plain o s : plainly (compare_at o s) = compare o s.
Proof.
  unfold compare_at, compare. strip. destruct (os_is_dir o _), (os_is_dir o _); cbn [andb negb]; strip; try apply blend_plain. destruct (os_is_diff o _), (os_is_diff o _); cbn [andb negb]; strip; apply blend_plain.
Qed.
Lemma finished_plain o s b st out err : plainly (slot_diff_process_finished_at o s b st out err) = slot_diff_process_finished o s b st out err.
Proof.
  unfold slot_diff_process_finished_at, slot_diff_process_finished. destruct (ml_process s); cbn [negb]; [|reflexivity]. strip. destruct b; [|destruct st; reflexivity]. strip. rewrite parse_plain.
  destruct (parse_diff_output _ _ _) as [[s1 [|]]| |]; cbn [bind negb]; try reflexivity. strip. destruct (the_info s1); cbn [bind]; try reflexivity.
  destruct (if mode_eqb _ _ then _ else _); cbn [bind]; try reflexivity. destruct (update_actions _); cbn [bind]; try reflexivity. rewrite show_plain. destruct (show _); reflexivity.
Qed.
Lemma first_plain (w : telling (mlist * bool)) : plainly (first_of w) = do r <- plainly w; Ok (fst r).
Proof. unfold first_of. strip. Qed.
Lemma occur_plain o s h : plainly (occur_at o s h) = occur o s h.
Proof.
  destruct h; cbn [occur_at occur]; rewrite ?first_plain, ?plainly_mutely;
  rewrite ?next_plain, ?previous_plain, ?next_file_plain, ?previous_file_plain, ?pair_plain, ?single_plain, ?apply_plain, ?apply_all_plain, ?act_apply_plain, ?act_unapply_plain, ?act_all_plain, ?slot_save_plain,
    ?save_plain, ?save_all_plain, ?clear_plain, ?show_plain, ?compare_plain, ?open_diff_plain, ?open_plain, ?blend_plain, ?parse_plain, ?finished_plain; try reflexivity.
  - unfold refresh_at, refresh. strip.
  - unfold swap_at, swap. strip. destruct (in_mode _); reflexivity.
Qed.

(** * The moments of a computation *)
Definition traced {A} (P : signal -> mlist -> Prop) (at_end : A -> mlist) (s : mlist) (w : telling A) : Prop :=
  forall a tr, w = Ok (a, tr) -> ml_out (at_end a) = ml_out s ++ map fst tr /\ in_order (ml_out s) tr /\ Forall (fun q => P (fst q) (snd q)) tr.
Definition itself (s : mlist) : mlist := s.
Definition of_pair (r : mlist * bool) : mlist := fst r.
Lemma in_order_app log a b : in_order log (a ++ b) <-> in_order log a /\ in_order (log ++ map fst a) b.
Proof.
  revert log. induction a as [|[g s] a IH]; intros log; cbn [app in_order map fst]; [rewrite app_nil_r; tauto|]. rewrite IH, <- app_assoc. cbn [app]. tauto.
Qed.
Lemma traced_after {A B} P (fa : A -> mlist) (fb : B -> mlist) s (w : telling A) (f : A -> telling B) :
  traced P fa s w -> (forall a tr, w = Ok (a, tr) -> traced P fb (fa a) (f a)) -> traced P fb s (after w f).
Proof.
  intros W F b tr E. unfold after in E. destruct w as [[a t]| |] eqn:EW; cbn [bind fst snd] in E; try discriminate. destruct (f a) as [[b' u]| |] eqn:EF; cbn [bind fst snd] in E; try discriminate.
  injection E as <- <-. destruct (W a t eq_refl) as (W1 & W2 & W3). destruct (F a t eq_refl b' u EF) as (F1 & F2 & F3). rewrite W1 in F1, F2.
  split; [rewrite F1, map_app, app_assoc; reflexivity|]. split; [apply in_order_app; auto|]. apply Forall_app. auto.
Qed.
Lemma traced_mutely {A} P (fa : A -> mlist) s (r : res A) : (forall a, r = Ok a -> ml_out (fa a) = ml_out s) -> traced P fa s (mutely r).
Proof. intros H a tr E. unfold mutely in E. destruct r as [x| |]; cbn [bind] in E; try discriminate. injection E as <- <-. rewrite (H x eq_refl), app_nil_r. repeat split. apply Forall_nil. Qed.
Lemma traced_bind {A B} P (fb : B -> mlist) s (w : res A) (f : A -> telling B) : (forall a, w = Ok a -> traced P fb s (f a)) -> traced P fb s (bind w f).
Proof. intros F. destruct w as [a| |]; cbn [bind]; [apply F; reflexivity| |]; intros b tr E; discriminate. Qed.
Lemma traced_from {A} P (fa : A -> mlist) s s0 w : ml_out s0 = ml_out s -> traced P fa s0 w -> traced P fa s w.
Proof. intros E T a tr W. specialize (T a tr W). now rewrite E in T. Qed.
Lemma traced_tell (P : signal -> mlist -> Prop) s g : P g (emit g s) -> traced P itself s (tell g s).
Proof. intros H a tr E. injection E as <- <-. cbn. repeat split. constructor; [exact H|constructor]. Qed.
Lemma traced_bad {A} P (fa : A -> mlist) s why : traced P fa s (UB why). Proof. intros a tr E. discriminate E. Qed.

(** * What emits nothing *)
Lemma out_update s s' : update_actions s = Ok s' -> ml_out s' = ml_out s.
Proof. unfold update_actions. intros H. destruct (ml_models s), (ml_sel s), (ml_diff s); repeat step H; injection H as <-; reflexivity. Qed.
Lemma out_first s s' : first_model s = Ok s' -> ml_out s' = ml_out s.
Proof. unfold first_model. intros H. step H. destruct a; [discriminate|]. injection H as <-. reflexivity. Qed.
Lemma out_last s s' : last_model s = Ok s' -> ml_out s' = ml_out s.
Proof. unfold last_model. intros H. step H. destruct (rev a); [discriminate|]. injection H as <-. reflexivity. Qed.
Lemma out_next s s' : next_model s = Ok s' -> ml_out s' = ml_out s.
Proof. unfold next_model. intros H. step H. destruct (Z.ltb _ _); [step H|]; injection H as <-; reflexivity. Qed.
Lemma out_prev s s' : prev_model s = Ok s' -> ml_out s' = ml_out s.
Proof. unfold prev_model. intros H. destruct (Z.ltb _ _); [|injection H as <-; reflexivity]. step H. destruct (Z.ltb _ _); [step H|]; injection H as <-; reflexivity. Qed.
Lemma out_to_first s s' : to_first_difference s = Ok s' -> ml_out s' = ml_out s.
Proof. unfold to_first_difference. intros H. step H. destruct a as [m x]. step H. destruct a as [y k]. injection H as <-. reflexivity. Qed.
Lemma out_to_last s s' : to_last_difference s = Ok s' -> ml_out s' = ml_out s.
Proof. unfold to_last_difference. intros H. step H. destruct a as [m x]. step H. destruct a as [y k]. injection H as <-. reflexivity. Qed.
Lemma out_select s m d r : select_in s m d = Ok r -> ml_out (fst r) = ml_out s.
Proof.
  unfold select_in. intros H. step H. destruct d as [[m' k]|]; [destruct (Nat.eqb _ _)|];
    try (destruct (set_selected_difference _ _) as [y b]); injection H as <-; reflexivity.
Qed.
Lemma out_set_model s m r : set_selected_model s m = Ok r -> ml_out (fst r) = ml_out s.
Proof.
  unfold set_selected_model. intros H. destruct (sel_eqb _ _); [step H; injection H as <-; now apply out_update|]. step H. destruct (Z.ltb _ _); [injection H as <-; reflexivity|]. step H. injection H as <-.
  apply out_update in E0. exact E0.
Qed.
Lemma out_blend_model s m t s' : blend_model s m t = Ok s' -> ml_out s' = ml_out s.
Proof. unfold blend_model. intros H. step H. step H. step H. apply out_to_first in H. apply out_first in E1. rewrite H, E1. reflexivity. Qed.
Lemma out_blend_dir o url : forall l s b r, blend_dir o url s l b = Ok r -> ml_out (fst r) = ml_out s.
Proof.
  induction l as [|m l IH]; intros s b r H; cbn [blend_dir] in H; [injection H as <-; reflexivity|]. step H. step H. apply out_blend_model in E0. apply IH in H. congruence.
Qed.
Lemma out_blend o s url r : blend_original o s url = Ok r -> ml_out (fst r) = ml_out s.
Proof.
  unfold blend_original. intros H. destruct (os_is_dir o url); [step H; eapply out_blend_dir; exact H|]. destruct (os_is_file o url); [|injection H as <-; reflexivity].
  step H. step H. step H. injection H as <-. eapply out_blend_model; exact E1.
Qed.
Lemma out_depth i : forall l s s', depth_and_applied i s l = Ok s' -> ml_out s' = ml_out s.
Proof. induction l as [|m l IH]; intros s s' H; cbn [depth_and_applied] in H; [injection H as <-; reflexivity|]. step H. step H. apply IH in H. rewrite H. reflexivity. Qed.

(** * Moments at which the signal is true *)
Notation true_to := truthful.
Lemma true_bar s : traced true_to itself s (status_bar_at s).
Proof.
  unfold status_bar_at. apply traced_bind. intros i Ei. apply traced_bind. intros [m x] Er. apply traced_bind. intros n En. apply traced_tell. cbn [truthful].
  unfold selected in Er. destruct (ml_sel s) as [m'|] eqn:EM; [|discriminate]. destruct (model_of s m') as [y| |] eqn:EX; try discriminate. cbn [bind] in Er. injection Er as -> ->.
  split; [unfold current_model; cbn [emit ml_sel]; rewrite EM; exact Ei|]. split; [unfold current_difference; cbn [emit ml_sel ml_diff]; rewrite EM; change (model_of (emit _ s) m) with (model_of s m); rewrite EX; reflexivity|].
  split; [reflexivity|]. split; [exact En|]. unfold applied_count. cbn [emit ml_sel]. rewrite EM. change (model_of (emit _ s) m) with (model_of s m). rewrite EX. reflexivity.
Qed.
Lemma true_ending s : traced true_to itself s (on s <- status_bar_at s; mutely (update_actions s)).
Proof. eapply traced_after; [apply true_bar|]. intros a tr _. apply traced_mutely. intros s' E. eapply out_update. exact E. Qed.
Lemma true_announce s : traced true_to itself s (announce_at s).
Proof. unfold announce_at. eapply traced_after; [apply traced_tell; split; reflexivity|]. intros a tr _. apply true_ending. Qed.
Lemma true_announce_difference s : traced true_to itself s (announce_difference_at s).
Proof. unfold announce_difference_at. eapply traced_after; [apply traced_tell; reflexivity|]. intros a tr _. apply true_ending. Qed.
Lemma true_previous_file s : traced true_to itself s (slot_previous_model_at s).
Proof.
  unfold slot_previous_model_at. apply traced_bind. intros s1 E1. apply traced_bind. intros s2 E2. apply traced_bind. intros s3 E3. eapply traced_from; [|apply true_announce].
  apply out_prev in E1. apply out_to_first in E3. destruct (ml_sel s1); [injection E2 as <-|apply out_first in E2]; congruence.
Qed.
Lemma true_next_file s : traced true_to itself s (slot_next_model_at s).
Proof.
  unfold slot_next_model_at. apply traced_bind. intros s1 E1. apply traced_bind. intros s2 E2. apply traced_bind. intros s3 E3. eapply traced_from; [|apply true_announce].
  apply out_next in E1. apply out_to_first in E3. destruct (ml_sel s1); [injection E2 as <-|apply out_last in E2]; congruence.
Qed.
Lemma true_previous s : traced true_to itself s (slot_previous_difference_at s).
Proof.
  unfold slot_previous_difference_at. apply traced_bind. intros [m x] _. apply traced_bind. intros [y [k|]] _; [eapply traced_from; [|apply true_announce_difference]; reflexivity|].
  apply traced_bind. intros s1 E1. apply out_prev in E1. destruct (ml_sel s1).
  - apply traced_bind. intros s2 E2. apply out_to_last in E2. eapply traced_from; [|apply true_announce]. rewrite E2, E1. reflexivity.
  - apply traced_bind. intros s2 E2. apply traced_bind. intros s3 E3. apply out_first in E2. apply out_to_first in E3. eapply traced_from; [|apply true_announce]. rewrite E3, E2, E1. reflexivity.
Qed.
Lemma true_next s : traced true_to itself s (slot_next_difference_at s).
Proof.
  unfold slot_next_difference_at. apply traced_bind. intros [m x] _. apply traced_bind. intros [y [k|]] _; [eapply traced_from; [|apply true_announce_difference]; reflexivity|].
  apply traced_bind. intros s1 E1. apply out_next in E1. destruct (ml_sel s1).
  - apply traced_bind. intros s2 E2. apply out_to_first in E2. eapply traced_from; [|apply true_announce]. rewrite E2, E1. reflexivity.
  - apply traced_bind. intros s2 E2. apply traced_bind. intros s3 E3. apply out_last in E2. apply out_to_last in E3. eapply traced_from; [|apply true_announce]. rewrite E3, E2, E1. reflexivity.
Qed.
(** ** Applying *)
Lemma update_flag (st : list difference) i d j y : nth_error st i = Some d -> nth_error (update st i y) j = (if Nat.eqb i j then Some y else nth_error st j).
Proof.
  intros E. destruct (Nat.eqb_spec i j) as [<-|N]; [apply nth_update_same; eapply nth_some_lt; exact E|apply nth_update_other; exact N].
Qed.
Lemma shift_flags line delta : forall l st st', shift_tracking l line delta st = Ok st' -> forall j d, nth_error st j = Some d -> exists d', nth_error st' j = Some d' /\ d_applied d' = d_applied d.
Proof.
  induction l as [|i l IH]; intros st st' H j d E; cbn [shift_tracking] in H; [injection H as <-; eauto|]. step H. apply deref_inv in E0. destruct (Z.ltb _ _).
  - assert (Q := update_flag st i a j (set_track (d_track a + delta) a) E0). destruct (Nat.eqb_spec i j) as [<-|N].
    + destruct (IH _ _ H i _ Q) as (d' & D1 & D2). exists d'. split; [exact D1|]. rewrite D2. cbn. congruence.
    + rewrite E in Q. eapply IH; [exact H|exact Q].
  - eapply IH; [exact H|exact E].
Qed.
Lemma quiet_flag b d : d_applied (apply_quietly b d) = b.
Proof. unfold apply_quietly. destruct (Bool.eqb _ _) eqn:B; [now apply Bool.eqb_prop|reflexivity]. Qed.
Lemma apply_all_flags b : forall l t st st', apply_all_loop l b t st = Ok st' ->
  (forall k, In k l -> exists d, nth_error st' k = Some d /\ d_applied d = b) /\
  (forall j d, nth_error st j = Some d -> d_applied d = b -> exists d', nth_error st' j = Some d' /\ d_applied d' = b).
Proof.
  induction l as [|i l IH]; intros t st st' H; cbn [apply_all_loop] in H; [injection H as <-; split; [intros k []|eauto]|]. step H. apply deref_inv in E.
  assert (Q : exists t1 y, d_applied y = b /\ apply_all_loop l b t1 (update st i y) = Ok st').
  { destruct (Bool.eqb (d_applied (set_track (d_track a + t) a)) b) eqn:B; eexists _, _; (split; [|exact H]); [apply Bool.eqb_prop in B; exact B|apply quiet_flag]. }
  destruct Q as (t1 & y & Y & H1). destruct (IH _ _ _ H1) as [A1 A2]. split.
  - intros k [<-|I]; [|apply A1; exact I]. apply (A2 i y); [|exact Y]. rewrite (update_flag st i a i y E), Nat.eqb_refl. reflexivity.
  - intros j d D AD. pose proof (update_flag st i a j y E) as U. destruct (Nat.eqb i j); [eapply A2; [exact U|exact Y]|]. rewrite D in U. eapply A2; [exact U|exact AD].
Qed.
Lemma deref_of st i d : nth_error st i = Some d -> deref st i = Ok d.
Proof. unfold deref. now intros ->. Qed.
Lemma apply_flag x b y : apply_difference x b = Ok y -> exists k d, dm_sel y = Some k /\ deref (dm_store y) k = Ok d /\ d_applied d = b.
Proof.
  unfold apply_difference. intros H. destruct (dm_sel x) as [i|] eqn:ES; [|discriminate]. step H. destruct (Bool.eqb _ _) eqn:B.
  - injection H as <-. exists i, a. split; [exact ES|]. split; [exact E|]. now apply Bool.eqb_prop.
  - cbv zeta in H. unfold apply_id in H. change (dm_store (with_applied x (if b then dm_applied x + 1 else dm_applied x - 1))) with (dm_store x) in H. rewrite E in H. cbn [bind] in H. rewrite B in H. apply deref_inv in E.
    assert (U := update_flag (dm_store x) i a i (apply_quietly b a) E). rewrite Nat.eqb_refl in U. destruct (d_connected _).
    + unfold slot_difference_applied in H. step H. injection H as <-. destruct (shift_flags _ _ _ _ _ E0 i _ U) as (d' & D1 & D2). exists i, d'. split; [exact ES|]. split; [apply deref_of; exact D1|]. rewrite D2. apply quiet_flag.
    + injection H as <-. exists i, (apply_quietly b a). split; [exact ES|]. split; [apply deref_of; exact U|apply quiet_flag].
Qed.
Lemma selected_inv s m x : selected s = Ok (m, x) -> ml_sel s = Some m /\ model_of s m = Ok x.
Proof. unfold selected. destruct (ml_sel s) as [m'|]; [|discriminate]. destruct (model_of s m') as [y| |] eqn:E; try discriminate. cbn [bind]. intros H. injection H as <- <-. auto. Qed.
Lemma true_apply s b : traced true_to itself s (slot_apply_difference_at s b).
Proof.
  unfold slot_apply_difference_at. apply traced_bind. intros [m x] Es. apply selected_inv in Es as [S1 S2]. apply traced_bind. intros y Ey.
  eapply traced_from; [|apply traced_tell]; [reflexivity|]. destruct (apply_flag _ _ _ Ey) as (k & d & K1 & K2 & K3). exists m, y, k, d. split; [exact S1|]. split; [eapply model_put; exact S2|]. auto.
Qed.
Lemma true_apply_all s b : traced true_to itself s (slot_apply_all_at s b).
Proof.
  unfold slot_apply_all_at. apply traced_bind. intros [m x] Es. apply selected_inv in Es as [S1 S2]. apply traced_bind. intros y Ey.
  eapply traced_from; [|apply traced_tell]; [reflexivity|]. exists m, y. split; [exact S1|]. split; [eapply model_put; exact S2|].
  unfold apply_all in Ey. step Ey. injection Ey as <-. intros k K. destruct (proj1 (apply_all_flags _ _ _ _ _ E) k K) as (d & D1 & D2). exists d. split; [apply deref_of; exact D1|exact D2].
Qed.
Lemma true_act_apply s : traced true_to itself s (slot_action_apply_at s).
Proof.
  unfold slot_action_apply_at. apply traced_bind. intros d _. eapply traced_after with (fa := itself); [destruct (d_applied d); [apply traced_mutely; intros a E; injection E as <-; reflexivity|apply true_apply]|].
  intros s1 t1 _. eapply traced_after; [apply true_next|]. intros s2 t2 _. apply traced_mutely. intros s3 E. eapply out_update; exact E.
Qed.
Lemma true_act_unapply s : traced true_to itself s (slot_action_unapply_at s).
Proof.
  unfold slot_action_unapply_at. apply traced_bind. intros d _. eapply traced_after with (fa := itself); [destruct (d_applied d); [apply true_apply|apply traced_mutely; intros a E; injection E as <-; reflexivity]|].
  intros s1 t1 _. eapply traced_after; [apply true_previous|]. intros s2 t2 _. apply traced_mutely. intros s3 E. eapply out_update; exact E.
Qed.
Lemma true_act_all s b : traced true_to itself s (slot_action_apply_all_at s b).
Proof. unfold slot_action_apply_all_at. eapply traced_after; [apply true_apply_all|]. intros s1 t1 _. apply traced_mutely. intros s3 E. eapply out_update; exact E. Qed.
(** ** Saving *)
Lemma true_save e s m : traced true_to of_pair s (save_model_at e s m).
Proof.
  unfold save_model_at. apply traced_bind. intros x _. apply traced_bind. intros o _. cbv zeta. eapply traced_from with (s0 := put_model s m (so_model o)); [reflexivity|].
  eapply traced_after with (fa := itself); [destruct (so_error o); [apply traced_tell; exact I|apply traced_mutely; intros a E; injection E as <-; reflexivity]|].
  intros a t _. apply traced_mutely. intros r E. injection E as <-. reflexivity.
Qed.
Lemma true_slot_save e s : traced true_to itself s (slot_save_at e s).
Proof.
  unfold slot_save_at. destruct (ml_sel s); [|apply traced_mutely; intros a E; injection E as <-; reflexivity]. eapply traced_after; [apply true_save|]. intros [s1 b] t _. cbv zeta.
  destruct (ml_has_save s1) eqn:HS; (eapply traced_from; [|apply traced_tell]); [reflexivity| |reflexivity|]; cbn [truthful emit with_act ml_has_save ml_act ac_save]; [reflexivity|congruence].
Qed.
Lemma true_saves envs : forall l k s, traced true_to of_pair s (save_models_at envs k s l).
Proof.
  induction l as [|m l IH]; intros k s; cbn [save_models_at]; [apply traced_mutely; intros a E; injection E as <-; reflexivity|].
  eapply traced_after; [apply true_save|]. intros [s1 [|]] t _; [apply IH|apply traced_mutely; intros a E; injection E as <-; reflexivity].
Qed.
Lemma true_save_all envs s : traced true_to of_pair s (save_all_models_at envs s).
Proof. unfold save_all_models_at. destruct (Z.eqb _ _); [apply traced_mutely; intros a E; injection E as <-; reflexivity|]. apply traced_bind. intros l _. apply true_saves. Qed.
(** ** Opening *)
Lemma true_clear s : traced true_to itself s (clear_at s).
Proof. unfold clear_at. cbv zeta. destruct (ml_models s); (eapply traced_from; [|apply traced_tell]; reflexivity). Qed.
Lemma true_show s : traced true_to itself s (show_at s).
Proof.
  unfold show_at. apply traced_bind. intros l E. unfold the_list in E. destruct (ml_models s) eqn:M; [|discriminate]. injection E as ->. eapply traced_after; [apply traced_tell; exact M|]. intros a t _. apply traced_tell. split; reflexivity.
Qed.
Lemma true_parse o s diff : (forall l, Permutation (os_sort o l) l) -> traced true_to of_pair s (parse_diff_output_at o s diff).
Proof.
  intros HP. unfold parse_diff_output_at. eapply traced_after; [apply traced_tell; exact I|]. intros s1 t1 _. apply traced_bind. intros p EP. cbv zeta. apply traced_bind. intros i _.
  set (h := match ml_models s1 with Some l => delete_all l (ml_heap s1) | None => ml_heap s1 end).
  destruct (po_models p) as [ms|] eqn:EM; cbn [with_models with_info ml_models]; [|apply traced_mutely; intros a E; injection E as <-; reflexivity].
  destruct (fresh_states _ _ _ _ HP EP EM) as [F N].
  set (s2 := with_info _ _). eapply traced_from with (s0 := s2); [reflexivity|]. eapply traced_after with (fa := itself).
  { destruct (po_malformed p); [apply traced_tell; discriminate|apply traced_mutely; intros a E; injection E as <-; reflexivity]. }
  intros s3 t3 E3. assert (T3 : tidy s3 (seq (length h) (length ms)) (map blank ms)).
  { apply (tidy_new h); [| |exact F]; (destruct (po_malformed p); [injection E3 as <- <-|unfold mutely in E3; cbn [bind] in E3; injection E3 as <- <-]); reflexivity. }
  unfold itself. apply traced_bind. intros s4 E4. apply traced_bind. intros s5 E5. apply traced_bind. intros n En.
  assert (O5 : ml_out s5 = ml_out s3) by (apply out_first in E4; apply out_to_first in E5; congruence).
  destruct (go_first_ok s3 _ _ T3) as (s5' & m & E' & T5 & A5 & (x & d & X1 & X2 & X3 & X4 & X5) & _); [destruct ms; [congruence|discriminate]|]. rewrite E4 in E'. cbn [bind] in E'. rewrite E5 in E'. injection E' as <-.
  assert (SH : shows s5 (mk_view (map blank ms) 0 0 (ml_rw s5))).
  { apply shows_split. split; [reflexivity|]. exists (seq (length h) (length ms)), m. split; [exact T5|]. split; [exact A5|]. exists x, d. auto. }
  apply observed_ok in SH. eapply traced_from; [exact O5|]. eapply traced_after with (fa := itself); [apply traced_tell|intros a t _; apply traced_mutely; intros r E; injection E as <-; reflexivity].
  destruct SH as [B1 B2 B3 B4 B5 _ _ _]. split; [exact B1|]. split; [exact B2|]. split; [reflexivity|]. split; [exact En|].
  replace (Ok 0) with (applied_count s5); [reflexivity|]. rewrite B5. f_equal. destruct ms as [|y ms]; [reflexivity|]. unfold now_of. cbn. clear. induction (length (dm_diffs y)); [reflexivity|exact IHn].
Qed.
Lemma unread o s diff s' tr : parse_diff_output_at o s diff = Ok ((s', false), tr) -> ml_models s' = None.
Proof.
  intros E. assert (Q : parse_diff_output o s diff = Ok (s', false)) by (rewrite <- parse_plain, E; reflexivity). clear E. unfold parse_diff_output in Q. step Q. step Q.
  destruct (ml_models (with_info _ _)) eqn:M in Q; [step Q; step Q; step Q; discriminate|]. injection Q as <-. exact M.
Qed.
Lemma true_end {A} (fa : A -> mlist) s (a : A) : ml_out (fa a) = ml_out s -> traced true_to fa s (mutely (Ok a)).
Proof. intros H. apply traced_mutely. intros b E. injection E as <-. exact H. Qed.
Lemma true_say g s b : truthful g (emit g s) -> traced true_to of_pair s (on s <- tell g s; mutely (Ok (s, b))).
Proof. intros H. eapply traced_after; [apply traced_tell; exact H|]. intros a t _. apply true_end. reflexivity. Qed.
Lemma true_open o s diff : (forall l, Permutation (os_sort o l) l) -> traced true_to of_pair s (parse_and_open_at o s diff).
Proof.
  intros HP. unfold parse_and_open_at. eapply traced_after; [apply true_clear|]. intros s1 t1 _. eapply traced_after; [apply traced_tell; exact I|]. intros s2 t2 _.
  eapply traced_after; [apply true_parse; exact HP|]. intros [s3 [|]] t3 E3.
  - unfold of_pair. cbn [fst]. apply traced_bind. intros s4 E4. apply out_update in E4. eapply traced_from; [exact E4|]. eapply traced_after; [apply true_show|]. intros s5 t5 _. apply true_say. exact I.
  - apply true_say. cbn. eapply unread; exact E3.
Qed.
Lemma true_blend o s : (forall l, Permutation (os_sort o l) l) -> traced true_to of_pair s (open_and_blend_at o s).
Proof.
  intros HP. unfold open_and_blend_at. eapply traced_after; [apply true_clear|]. intros s1 t1 _. apply traced_bind. intros i _. eapply traced_after; [apply true_parse; exact HP|]. intros [s3 [|]] t3 E3; unfold of_pair; cbn [fst negb].
  - apply traced_bind. intros j _. apply traced_bind. intros l _. apply traced_bind. intros s4 E4. apply out_depth in E4. apply traced_bind. intros [s5 b] E5. apply out_blend in E5. cbn [fst] in E5. destruct b; cbn [negb].
    + apply traced_bind. intros s6 E6. apply out_update in E6. eapply traced_from with (s0 := s6); [congruence|]. eapply traced_after; [apply true_show|]. intros s7 t7 _. apply true_end. reflexivity.
    + eapply traced_from with (s0 := s5); [congruence|]. apply true_say. exact I.
  - apply true_say. cbn. eapply unread; exact E3.
Qed.
Lemma true_mode s : traced true_to itself s (compare_mode_at s).
Proof. unfold compare_mode_at. eapply traced_after; [apply true_clear|]. intros s1 t1 _. eapply traced_from with (s0 := with_process s1 true); [reflexivity|]. apply traced_tell. reflexivity. Qed.
Lemma true_compare o s : (forall l, Permutation (os_sort o l) l) -> traced true_to of_pair s (compare_at o s).
Proof.
  intros HP. unfold compare_at. apply traced_bind. intros i _. cbv zeta.
  assert (B : forall j, traced true_to of_pair s (open_and_blend_at o (with_info s j))) by (intros j; eapply traced_from with (s0 := with_info s j); [reflexivity|]; apply true_blend; exact HP).
  assert (M : forall j, traced true_to of_pair s (on s <- compare_mode_at (with_info s j); mutely (Ok (s, true)))).
  { intros j. eapply traced_from with (s0 := with_info s j); [reflexivity|]. eapply traced_after; [apply true_mode|]. intros s1 t1 _. apply true_end. reflexivity. }
  destruct (os_is_dir o _), (os_is_dir o _); cbn [andb negb]; try apply B; try apply M. destruct (os_is_diff o _), (os_is_diff o _); cbn [andb negb]; try apply B; apply M.
Qed.
Lemma true_finished o s b st out err : (forall l, Permutation (os_sort o l) l) -> traced true_to itself s (slot_diff_process_finished_at o s b st out err).
Proof.
  intros HP. unfold slot_diff_process_finished_at. destruct (ml_process s) eqn:PR; cbn [negb]; [|apply traced_bad]. eapply traced_after with (fa := itself); [|intros s1 t1 _; apply true_end; reflexivity].
  destruct b; [|destruct st; apply traced_tell; exact PR]. eapply traced_after; [apply traced_tell; exact I|]. intros s1 t1 _. eapply traced_after; [apply true_parse; exact HP|]. intros [s2 ok] t2 E2. unfold of_pair; cbn [fst].
  eapply traced_after with (fa := itself); [|intros s3 t3 _; apply traced_tell; exact I]. destruct ok; cbn [negb].
  - apply traced_bind. intros i _. apply traced_bind. intros s3 E3. apply traced_bind. intros s4 E4. apply out_update in E4. eapply traced_from with (s0 := s4); [|apply true_show].
    destruct (mode_eqb _ _); [injection E3 as <-; exact E4|]. step E3. apply out_blend in E. injection E3 as <-. congruence.
  - apply traced_tell. cbn. eapply unread; exact E2.
Qed.
Lemma true_first s w : traced true_to of_pair s w -> traced true_to itself s (first_of w).
Proof. intros W. unfold first_of. eapply traced_after; [exact W|]. intros a t _. apply true_end. reflexivity. Qed.

(** ** Selecting *)
Lemma same_update s s' : update_actions s = Ok s' -> ml_sel s' = ml_sel s /\ ml_diff s' = ml_diff s /\ ml_models s' = ml_models s /\ ml_heap s' = ml_heap s /\ ml_index s' = ml_index s /\ ml_rw s' = ml_rw s.
Proof. unfold update_actions. intros H. destruct (ml_models s) eqn:E1, (ml_sel s) eqn:E2, (ml_diff s) eqn:E3; repeat step H; injection H as <-; cbn [with_act ml_sel ml_diff ml_models ml_heap ml_index ml_rw]; auto 10. Qed.
(** The moments of a selection: the signal with the arguments, the status bar; the selection does not change any more. *)
Lemma closing g s s' tr : (on s <- tell g s; on s <- status_bar_at s; mutely (update_actions s)) = Ok (s', tr) ->
  exists bar, tr = [(g, emit g s); (bar, emit bar (emit g s))] /\ truthful bar (emit bar (emit g s)) /\
    ml_out s' = ml_out s ++ [g; bar] /\ ml_sel s' = ml_sel s /\ ml_diff s' = ml_diff s /\ ml_models s' = ml_models s /\ ml_heap s' = ml_heap s /\ ml_index s' = ml_index s /\ ml_rw s' = ml_rw s.
Proof.
  intros E. unfold after in E at 1. cbn [tell bind fst snd] in E. unfold after in E. destruct (status_bar_at (emit g s)) as [[s1 t1]| |] eqn:E1; cbn [bind fst snd] in E; try discriminate.
  pose proof (true_bar (emit g s) s1 t1 E1) as (_ & _ & F). unfold mutely in E. destruct (update_actions s1) as [s2| |] eqn:E2; cbn [bind fst snd] in E; try discriminate. injection E as <- <-.
  unfold status_bar_at in E1. step E1. step E1. destruct a0 as [m x]. step E1. unfold tell in E1. injection E1 as <- <-. set (bar := SetStatusBar _ _ _ _ _) in *. exists bar. pose proof (out_update _ _ E2) as O. apply same_update in E2 as (U1 & U2 & U3 & U4 & U5 & U6).
  split; [reflexivity|]. split; [inversion F as [|? ? F1 _]; exact F1|]. split; [rewrite O; cbn; rewrite <- app_assoc; reflexivity|]. auto 10.
Qed.
Lemma sel_select s m d r : select_in s m d = Ok r -> ml_sel (fst r) = ml_sel s /\ ml_diff (fst r) = ml_diff s.
Proof.
  unfold select_in. intros H. step H. destruct d as [[m' k]|]; [destruct (Nat.eqb _ _)|];
    try (destruct (set_selected_difference _ _) as [y b]); injection H as <-; split; reflexivity.
Qed.
Lemma sel_to_first s s' : to_first_difference s = Ok s' -> ml_sel s' = ml_sel s.
Proof. unfold to_first_difference. intros H. step H. destruct a as [m x]. step H. destruct a as [y k]. injection H as <-. reflexivity. Qed.
Lemma pair_moments s m d s' tr : slot_selection_changed_at s m d = Ok (s', tr) ->
  exists s1, ml_out s1 = ml_out s /\ ml_sel s1 = m /\ ml_sel s' = m /\ (on s <- tell (SetSelection m d) s1; on s <- status_bar_at s; mutely (update_actions s)) = Ok (s', tr).
Proof.
  unfold slot_selection_changed_at. intros H. step H. destruct m as [m'|]; [|discriminate]. step H. pose proof (out_select _ _ _ _ E0) as O1. apply sel_select in E0 as [S1 D1]. cbn in O1, S1, D1.
  step H. pose proof (out_set_model _ _ _ E0) as O2. assert (OK : snd a1 = true /\ ml_sel (fst a1) = Some m').
  { unfold set_selected_model in E0. rewrite S1 in E0. unfold sel_eqb in E0. rewrite Nat.eqb_refl in E0. step E0. injection E0 as <-. apply same_update in E1 as (U1 & _). cbn. split; [reflexivity|congruence]. }
  destruct a1 as [s1 ok]. cbn [fst snd] in *. destruct OK as [-> SE]. rewrite SE in H. cbn [bind] in H.
  match type of H with bind ?w _ = _ => destruct w as [s2| |] eqn:E2; cbn [bind] in H; try discriminate H end. exists s2. assert (Q : ml_out s2 = ml_out s1 /\ ml_sel s2 = Some m').
  { step E2. pose proof (out_select _ _ _ _ E1) as O3. apply sel_select in E1 as [S3 _]. destruct a1 as [s3 [|]]; cbn [fst] in *; [injection E2 as <-; split; congruence|]. pose proof (out_to_first _ _ E2). apply sel_to_first in E2. split; congruence. }
  destruct Q as [Q1 Q2]. split; [congruence|]. split; [exact Q2|]. split; [|exact H]. destruct (closing _ _ _ _ H) as (bar & _ & _ & _ & C & _). congruence.
Qed.
Lemma single_moments s d s' tr : slot_difference_changed_at s d = Ok (s', tr) ->
  exists s1, ml_out s1 = ml_out s /\ ml_sel s1 = ml_sel s /\ (on s <- tell (SetSelectionOf d) s1; on s <- status_bar_at s; mutely (update_actions s)) = Ok (s', tr).
Proof.
  unfold slot_difference_changed_at. cbv zeta. cbn [with_diff ml_sel]. intros H. destruct (ml_sel s) as [m|] eqn:SE; [|discriminate]. step H. pose proof (out_select _ _ _ _ E) as O1. apply sel_select in E as [S1 D1]. destruct a as [s1 ok]. cbn in O1, S1, D1.
  match type of H with bind ?w _ = _ => destruct w as [s2| |] eqn:E2; cbn [bind] in H; try discriminate H end. exists s2. destruct ok; [injection E2 as <-; split; [exact O1|]; split; [congruence|exact H]|].
  pose proof (out_to_first _ _ E2). apply sel_to_first in E2. split; [congruence|]. split; [congruence|exact H].
Qed.
