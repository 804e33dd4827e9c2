(** Proofs about slots that call the list back (Reentrant.v). *)
From Coq Require Import String Permutation.
From Verif Require Import Base QtStr Diff Save Parser SpecHistory SpecPatch SpecParse Blend SpecBlend Info ModelList Life Reentrant SpecReentrant SpecSignals SpecList PHistory PModelState PropsParse PSave PList PListOpen PKin PropsInfo PSignals PropsSignals.
Local Open Scope Z_scope.

Ltac open1 := first
  [ reflexivity
  | progress cbn [bind fst snd]
  | match goal with |- bind ?w _ = bind ?w _ => apply bind_ext; intros ? end
  | match goal with |- context [let '(_, _) := ?a in _] => is_var a; destruct a end ].
Ltac unfolding := repeat open1.
(** * Silent slots *)
Lemma bar_silent s : status_bar_k silent s = status_bar s.
Proof. unfold status_bar_k, status_bar. unfolding. Qed.
Lemma announce_silent s : announce_k silent s = announce s.
Proof. unfold announce_k, announce. unfolding. Qed.
Lemma announce_difference_silent s : announce_difference_k silent s = announce_difference s.
Proof. unfold announce_difference_k, announce_difference. unfolding. Qed.
Lemma pair_silent s m d : slot_selection_changed_k silent s m d = slot_selection_changed s m d.
Proof. unfold slot_selection_changed_k, slot_selection_changed. unfolding. Qed.
Lemma single_silent s d : slot_difference_changed_k silent s d = slot_difference_changed s d.
Proof. unfold slot_difference_changed_k, slot_difference_changed. unfolding. Qed.
Lemma previous_file_silent s : slot_previous_model_k silent s = slot_previous_model s.
Proof. unfold slot_previous_model_k, slot_previous_model. unfolding. Qed.
Lemma next_file_silent s : slot_next_model_k silent s = slot_next_model s.
Proof. unfold slot_next_model_k, slot_next_model. unfolding. Qed.
Lemma previous_silent s : slot_previous_difference_k silent s = slot_previous_difference s.
Proof. unfold slot_previous_difference_k, slot_previous_difference. unfolding. Qed.
Lemma next_silent s : slot_next_difference_k silent s = slot_next_difference s.
Proof. unfold slot_next_difference_k, slot_next_difference. unfolding. Qed.
Lemma apply_silent s b : slot_apply_difference_k silent s b = slot_apply_difference s b.
Proof. unfold slot_apply_difference_k, slot_apply_difference. unfolding. Qed.
Lemma apply_all_silent s b : slot_apply_all_k silent s b = slot_apply_all s b.
Proof. unfold slot_apply_all_k, slot_apply_all. unfolding. Qed.
Lemma act_apply_silent s : slot_action_apply_k silent s = slot_action_apply s.
Proof. reflexivity. Qed.
Lemma act_unapply_silent s : slot_action_unapply_k silent s = slot_action_unapply s.
Proof. reflexivity. Qed.
Lemma act_all_silent s b : slot_action_apply_all_k silent s b = slot_action_apply_all s b.
Proof. unfold slot_action_apply_all_k, slot_action_apply_all. unfolding. Qed.
Lemma save_silent e s m : save_model_k silent e s m = save_model e s m.
Proof. unfold save_model_k, save_model. unfolding. destruct (so_error _); unfolding. Qed.
Lemma slot_save_silent e s : slot_save_k silent e s = slot_save e s.
Proof. unfold slot_save_k, slot_save. destruct (ml_sel s); [|reflexivity]. rewrite save_silent. unfolding. Qed.
Lemma save_models_same e s m s' b : save_model e s m = Ok (s', b) -> ml_models s' = ml_models s.
Proof. unfold save_model. intros H. step H. step H. destruct (so_error _); injection H as <- <-; reflexivity. Qed.
Lemma saves_silent envs all : forall l j s, ml_models s = Some all -> save_models_k silent envs j s all l = save_models envs j s l.
Proof.
  induction l as [|m l IH]; intros j s M; [reflexivity|]. cbn [save_models_k save_models]. rewrite save_silent. destruct (save_model (envs j) s m) as [[s1 [|]]| |] eqn:E; cbn [bind]; try reflexivity.
  apply save_models_same in E. unfold Reentrant.same_list. rewrite E, M. destruct (list_eq_dec Nat.eq_dec all all); [|congruence]. apply IH. congruence.
Qed.
Lemma save_all_silent envs s : save_all_models_k silent envs s = save_all_models envs s.
Proof. unfold save_all_models_k, save_all_models. destruct (Z.eqb _ _); [reflexivity|]. unfold the_list. destruct (ml_models s) as [l|] eqn:M; [|reflexivity]. cbn [bind]. now apply saves_silent. Qed.
Lemma parse_silent o s diff : parse_diff_output_k silent o s diff = parse_diff_output o s diff.
Proof. unfold parse_diff_output_k, parse_diff_output, raise, silent. unfolding. destruct (ml_models (with_info _ _)); [|reflexivity]. destruct (po_malformed _); unfolding. Qed.
Lemma show_silent s : show_k silent s = show s. Proof. unfold show_k, show. unfolding. Qed.
Lemma open_silent o s diff : parse_and_open_k silent o s diff = parse_and_open o s diff.
Proof. unfold parse_and_open_k, parse_and_open, clear_k, raise, silent at 1 2. cbn [bind]. rewrite parse_silent. unfolding; destruct b; unfolding. Qed.
Lemma blend_silent o s : open_and_blend_k silent o s = open_and_blend o s.
Proof. unfold open_and_blend_k, open_and_blend, clear_k, raise, silent at 1. cbn [bind]. apply bind_ext. intros i. rewrite parse_silent. unfolding; destruct b; unfolding; destruct b; unfolding. Qed.
Lemma mode_silent s : compare_mode_k silent s = Ok (compare_mode s).
Proof. reflexivity. Qed.
Lemma compare_silent o s : compare_k silent o s = compare o s.
Proof.
  unfold compare_k, compare. unfolding. destruct (os_is_dir o (in_local_source a)), (os_is_dir o (in_local_destination a)); cbn [andb negb]; try apply blend_silent; try reflexivity.
  destruct (os_is_diff o (in_local_source a)), (os_is_diff o (in_local_destination a)); cbn [andb negb]; try apply blend_silent; reflexivity.
Qed.
Lemma finished_silent o s b st out err : slot_diff_process_finished_k silent o s b st out err = slot_diff_process_finished o s b st out err.
Proof.
  unfold slot_diff_process_finished_k, slot_diff_process_finished. destruct (negb _); [reflexivity|]. destruct b; [|destruct st; reflexivity]. unfold raise at 1. unfold silent at 1. cbn [bind]. rewrite parse_silent. rewrite !bind_assoc.
  unfolding; destruct b; cbn [negb bind]; unfolding; destruct (mode_eqb _ _); unfolding.
Qed.

(** Slots that do nothing change nothing: these are the calls of Life.v. *)
Lemma occur_silent : forall o s h, occur_k silent o s h = occur o s h.
Proof.
  intros o s h. destruct h; cbn [occur_k occur]; unfold first_k;
    first [ apply next_silent | apply previous_silent | apply next_file_silent | apply previous_file_silent | apply pair_silent | apply single_silent | apply apply_silent | apply apply_all_silent | apply act_apply_silent
          | apply act_unapply_silent | apply act_all_silent | apply slot_save_silent | rewrite save_silent; reflexivity | rewrite save_all_silent; reflexivity | rewrite compare_silent; reflexivity | rewrite open_silent; reflexivity
          | rewrite blend_silent; reflexivity | rewrite parse_silent; reflexivity | apply finished_silent | apply show_silent | reflexivity | idtac ].
  destruct file; [reflexivity|]. cbn [open_diff_k open_diff]. rewrite open_silent. reflexivity.
Qed.

(** * What is kept on the way to a signal *)
Definition kept (a b : mlist) : Prop := ml_models b = ml_models a /\ ml_info b = ml_info a.
Lemma kept_refl s : kept s s. Proof. split; reflexivity. Qed.
Lemma kept_trans a b c : kept a b -> kept b c -> kept a c. Proof. unfold kept. intuition congruence. Qed.
Lemma kept_update s s' : update_actions s = Ok s' -> kept s s'.
Proof. unfold update_actions. intros H. destruct (ml_models s) eqn:M, (ml_sel s), (ml_diff s); repeat step H; injection H as <-; split; cbn; auto. Qed.
Lemma kept_first s s' : first_model s = Ok s' -> kept s s'.
Proof. unfold first_model. intros H. step H. destruct a; [discriminate|]. injection H as <-. split; reflexivity. Qed.
Lemma kept_last s s' : last_model s = Ok s' -> kept s s'.
Proof. unfold last_model. intros H. step H. destruct (rev a); [discriminate|]. injection H as <-. split; reflexivity. Qed.
Lemma kept_next s s' : next_model s = Ok s' -> kept s s'.
Proof. unfold next_model. intros H. step H. destruct (Z.ltb _ _); [step H|]; injection H as <-; split; reflexivity. Qed.
Lemma kept_prev s s' : prev_model s = Ok s' -> kept s s'.
Proof. unfold prev_model. intros H. destruct (Z.ltb _ _); [|injection H as <-; split; reflexivity]. step H. destruct (Z.ltb _ _); [step H|]; injection H as <-; split; reflexivity. Qed.
Lemma kept_to_first s s' : to_first_difference s = Ok s' -> kept s s'.
Proof. unfold to_first_difference. intros H. step H. destruct a as [m x]. step H. destruct a as [y k]. injection H as <-. split; reflexivity. Qed.
Lemma kept_to_last s s' : to_last_difference s = Ok s' -> kept s s'.
Proof. unfold to_last_difference. intros H. step H. destruct a as [m x]. step H. destruct a as [y k]. injection H as <-. split; reflexivity. Qed.
Lemma kept_select s m d r : select_in s m d = Ok r -> kept s (fst r).
Proof.
  unfold select_in. intros H. step H. destruct d as [[m' k]|]; [destruct (Nat.eqb _ _)|];
    try (destruct (set_selected_difference _ _) as [y b]); injection H as <-; split; reflexivity.
Qed.
Lemma kept_set_model s m r : set_selected_model s m = Ok r -> kept s (fst r).
Proof.
  unfold set_selected_model. intros H. destruct (sel_eqb _ _); [step H; injection H as <-; now apply kept_update|]. step H. destruct (Z.ltb _ _); [injection H as <-; split; reflexivity|]. step H. injection H as <-.
  apply kept_update in E0. exact E0.
Qed.
Lemma kept_put s m x : kept s (put_model s m x). Proof. split; reflexivity. Qed.

(** * Calls that end by telling *)
Definition finish (k : slots) (g : signal) (s : mlist) : res mlist := do s <- raise k g s; do s <- status_bar_k k s; update_actions s.
Definition ends (T : mlist * signal -> Prop) (E : slots -> signal -> mlist -> res mlist) (s : mlist) (F : slots -> res mlist) : Prop :=
  exists P : res (mlist * signal), (forall r, P = Ok r -> kept s (fst r) /\ T r) /\ forall k, F k = bind P (fun r => E k (snd r) (fst r)).
Definition no_claim (r : mlist * signal) : Prop := True.
Definition told_true (r : mlist * signal) : Prop := truthful (snd r) (emit (snd r) (fst r)).
Lemma ends_bind {A} T E s (w : res A) (f : A -> slots -> res mlist) : (forall a, w = Ok a -> ends T E s (f a)) -> ends T E s (fun k => bind w (fun a => f a k)).
Proof.
  intros H. destruct w as [a|why|]; [exact (H a eq_refl)| |].
  - exists (UB why). split; [discriminate|]. reflexivity.
  - exists OutOfFuel. split; [discriminate|]. reflexivity.
Qed.
Lemma ends_here (T : mlist * signal -> Prop) E s s' g : kept s s' -> T (s', g) -> ends T E s (fun k => E k g s').
Proof. intros K C. exists (Ok (s', g)). split; [intros r H; injection H as <-; split; [exact K|exact C]|]. reflexivity. Qed.
Lemma ends_bad T E s why : ends T E s (fun k => UB why).
Proof. exists (UB why). split; [discriminate|]. reflexivity. Qed.
Lemma ends_announce s s' : kept s s' -> ends no_claim finish s (fun k => announce_k k s'). Proof. intros K. exact (ends_here no_claim finish s s' (SetSelection (ml_sel s') (ml_diff s')) K Logic.I). Qed.
Lemma ends_announce_difference s s' : kept s s' -> ends no_claim finish s (fun k => announce_difference_k k s').
Proof. intros K. exact (ends_here no_claim finish s s' (SetSelectionOf (ml_diff s')) K Logic.I). Qed.
Ltac kt :=
  repeat match goal with
         | H : next_model _ = Ok _ |- _ => apply kept_next in H | H : prev_model _ = Ok _ |- _ => apply kept_prev in H
         | H : first_model _ = Ok _ |- _ => apply kept_first in H | H : last_model _ = Ok _ |- _ => apply kept_last in H
         | H : to_first_difference _ = Ok _ |- _ => apply kept_to_first in H | H : to_last_difference _ = Ok _ |- _ => apply kept_to_last in H
         | H : Ok _ = Ok _ |- _ => injection H as <-
         | H : kept _ _ |- _ => destruct H
         end; split; congruence.
Lemma ends_next s : ends no_claim finish s (fun k => slot_next_difference_k k s).
Proof.
  unfold slot_next_difference_k. apply ends_bind. intros [m x] _. apply ends_bind. intros [y [j|]] _; [apply ends_announce_difference; split; reflexivity|].
  apply ends_bind. intros s1 E1. apply kept_next in E1. assert (K1 : kept s s1) by exact E1. destruct (ml_sel s1).
  - apply ends_bind. intros s2 E2. apply ends_announce. kt.
  - apply ends_bind. intros s2 E2. apply ends_bind. intros s3 E3. apply ends_announce. kt.
Qed.
Lemma ends_previous s : ends no_claim finish s (fun k => slot_previous_difference_k k s).
Proof.
  unfold slot_previous_difference_k. apply ends_bind. intros [m x] _. apply ends_bind. intros [y [j|]] _; [apply ends_announce_difference; split; reflexivity|].
  apply ends_bind. intros s1 E1. apply kept_prev in E1. assert (K1 : kept s s1) by exact E1. destruct (ml_sel s1).
  - apply ends_bind. intros s2 E2. apply ends_announce. kt.
  - apply ends_bind. intros s2 E2. apply ends_bind. intros s3 E3. apply ends_announce. kt.
Qed.
Lemma ends_next_file s : ends no_claim finish s (fun k => slot_next_model_k k s).
Proof.
  unfold slot_next_model_k. apply ends_bind. intros s1 E1. apply ends_bind. intros s2 E2. apply ends_bind. intros s3 E3. apply ends_announce.
  assert (kept s1 s2) by (destruct (ml_sel s1); kt). kt.
Qed.
Lemma ends_previous_file s : ends no_claim finish s (fun k => slot_previous_model_k k s).
Proof.
  unfold slot_previous_model_k. apply ends_bind. intros s1 E1. apply ends_bind. intros s2 E2. apply ends_bind. intros s3 E3. apply ends_announce.
  assert (kept s1 s2) by (destruct (ml_sel s1); kt). kt.
Qed.
Lemma ends_pair s m d : ends no_claim finish s (fun k => slot_selection_changed_k k s m d).
Proof.
  unfold slot_selection_changed_k. cbv zeta. apply ends_bind. intros l _. destruct m as [m'|]; [|apply ends_bad]. apply ends_bind. intros r1 E1. apply kept_select in E1. apply ends_bind. intros r2 E2. apply kept_set_model in E2.
  assert (K2 : kept s (fst r2)) by (eapply kept_trans; [exact E1|exact E2]). destruct r2 as [s2 ok]. cbn [fst] in *. apply (ends_bind no_claim finish s _ (fun a k => finish k (SetSelection (Some m') d) a)). intros s3 E3. apply ends_here; [|exact Logic.I]. eapply kept_trans; [exact K2|].
  destruct ok.
  - destruct (ml_sel s2); [|discriminate]. step E3. apply kept_select in E. destruct a as [s4 [|]]; cbn [fst] in E; [injection E3 as <-; exact E|kt].
  - step E3. kt.
Qed.
Lemma ends_single s d : ends no_claim finish s (fun k => slot_difference_changed_k k s d).
Proof.
  unfold slot_difference_changed_k. cbv zeta. cbn [with_diff ml_sel]. destruct (ml_sel s) as [m|]; [|apply ends_bad]. apply ends_bind. intros [s1 ok] E1. apply kept_select in E1. cbn [fst] in E1. assert (K1 : kept s s1) by exact E1.
  apply (ends_bind no_claim finish s _ (fun a k => finish k (SetSelectionOf d) a)). intros s2 E2. apply ends_here; [|exact Logic.I]. destruct ok; [injection E2 as <-; exact K1|kt].
Qed.
Lemma ends_apply s b : ends told_true raise s (fun k => slot_apply_difference_k k s b).
Proof.
  unfold slot_apply_difference_k. apply ends_bind. intros [m x] Es. apply selected_inv in Es as [S1 S2]. apply ends_bind. intros y Ey. apply (ends_here told_true raise); [split; reflexivity|].
  destruct (apply_flag _ _ _ Ey) as (k & d & K1 & K2 & K3). exists m, y, k, d. split; [exact S1|]. split; [eapply model_put; exact S2|]. auto.
Qed.
Lemma ends_apply_all s b : ends told_true raise s (fun k => slot_apply_all_k k s b).
Proof.
  unfold slot_apply_all_k. apply ends_bind. intros [m x] Es. apply selected_inv in Es as [S1 S2]. apply ends_bind. intros y Ey. apply (ends_here told_true raise); [split; reflexivity|].
  exists m, y. split; [exact S1|]. split; [eapply model_put; exact S2|].
  unfold apply_all in Ey. step Ey. injection Ey as <-. intros k K. destruct (proj1 (apply_all_flags _ _ _ _ _ E) k K) as (d & D1 & D2). exists d. split; [apply deref_of; exact D1|exact D2].
Qed.

(** * Outcomes *)
Lemma well_bind {A} (P : mlist -> Prop) (w : res mlist) (f : mlist -> res A) (Q : A -> Prop) :
  goes_well P w -> (forall s, P s -> match f s with Ok a => Q a | UB _ => False | OutOfFuel => True end) ->
  match bind w f with Ok a => Q a | UB _ => False | OutOfFuel => True end.
Proof. intros G H. destruct w; cbn [bind goes_well] in *; [apply H; exact G|exact G|exact I]. Qed.
Lemma well_next P Q w f : goes_well P w -> (forall s, P s -> goes_well Q (f s)) -> goes_well Q (bind w f).
Proof. intros G H. apply (well_bind P w f Q G). exact H. Qed.
Lemma well_weaken (P Q : mlist -> Prop) w : goes_well P w -> (forall s, P s -> Q s) -> goes_well Q w.
Proof. destruct w; cbn; auto. Qed.
Lemma in_order_same L s s' : near s s' -> ml_info s' = ml_info s -> in_order_for L s -> in_order_for L s'.
Proof.
  intros N I ((v & V) & I0 & M). split; [exists v; eapply near_shows; eassumption|]. split; [congruence|]. destruct N as (_ & N & _). destruct L; [|exact Logic.I]. congruence.
Qed.
Lemma in_order_emit L s g : in_order_for L s -> in_order_for L (emit g s).
Proof. apply in_order_same; [repeat split|reflexivity]. Qed.
Lemma raise_well L k g s : gentle L k -> in_order_for L s -> truthful g (emit g s) -> goes_well (in_order_for L) (raise k g s).
Proof. intros G O T. apply G; [apply in_order_emit, O|exact T]. Qed.
Lemma bar_true s v : shows s v -> truthful (bar_of v) (emit (bar_of v) s).
Proof. intros V. pose proof (observed_ok _ _ (shows_emit s v (bar_of v) V)) as [A B C D E _ _ _]. cbn [truthful bar_of]. repeat split; assumption. Qed.
Lemma bar_well L k s : gentle L k -> in_order_for L s -> goes_well (in_order_for L) (status_bar_k k s).
Proof.
  intros G O. pose proof O as ((v & V) & _). pose proof (status_bar_ok s v V) as E. unfold status_bar in E. unfold status_bar_k.
  step E. step E. destruct a0 as [m x]. step E. cbn [bind]. injection E as E. apply app_inv_head in E. injection E as J1 J2 J3 J4 J5. apply raise_well; [exact G|exact O|].
  pose proof (bar_true s v V) as T. unfold bar_of in T. rewrite <- J1, <- J2, <- J3, <- J4, <- J5 in T. exact T.
Qed.
Lemma update_well L s : in_order_for L s -> goes_well (fun s' => in_order_for L s' /\ up_to_date s') (update_actions s).
Proof.
  intros O. pose proof O as ((v & V) & _). destruct (update_actions_ok s v V) as (a & E & R). rewrite E. cbn. split; [eapply in_order_same; [..|exact O]; [repeat split|reflexivity]|]. exists v. split; [now apply shows_act|exact R].
Qed.
Lemma finish_well L k g s : gentle L k -> in_order_for L s -> truthful g (emit g s) -> goes_well (fun s' => in_order_for L s' /\ up_to_date s') (finish k g s).
Proof.
  intros G O T. unfold finish. apply (well_next (in_order_for L)); [now apply raise_well|]. intros s1 O1. apply (well_next (in_order_for L)); [now apply bar_well|]. intros s2 O2. now apply update_well.
Qed.
Lemma in_order_kept L s s1 s' v' : in_order_for L s -> kept s s1 -> near s1 s' -> shows s' v' -> in_order_for L s1.
Proof.
  intros (_ & I & M) (KM & KI) N V. split; [exists v'; eapply near_shows; [|exact V]; destruct N as (N1 & N2 & N3 & N4 & N5 & N6); repeat split; congruence|]. split; [congruence|]. destruct L; [congruence|exact Logic.I].
Qed.
Lemma finish_near g s s' : finish silent g s = Ok s' -> near s s'.
Proof.
  unfold finish, raise, silent at 1. cbn [bind]. rewrite bar_silent. intros E. step E. unfold status_bar in E0. step E0. step E0. destruct a1 as [m x]. step E0. injection E0 as <-. apply same_update in E as (U1 & U2 & U3 & U4 & U5 & U6). repeat split; cbn in *; congruence.
Qed.
Lemma finish_told g s s' : finish silent g s = Ok s' -> exists pre bar, ml_out s' = pre ++ [g; bar].
Proof.
  unfold finish, raise, silent at 1. cbn [bind]. rewrite bar_silent. intros E. step E. unfold status_bar in E0. step E0. step E0. destruct a1 as [m x]. step E0. injection E0 as <-. apply out_update in E. rewrite E. cbn [emit ml_out]. rewrite <- app_assoc. eexists _, _. reflexivity.
Qed.
Lemma finishing L k s F s' v' : ends no_claim finish s F -> F silent = Ok s' -> shows s' v' ->
  (exists pre g bar, ml_out s' = pre ++ [g; bar] /\ (g = SetSelection (ml_sel s') (ml_diff s') \/ g = SetSelectionOf (ml_diff s'))) ->
  gentle L k -> in_order_for L s -> goes_well (fun s' => in_order_for L s' /\ up_to_date s') (F k).
Proof.
  intros (P & K & EF) E V (pre & g0 & bar & OUT & ARG) G O. rewrite EF in E |- *. step E. destruct a as [s1 g]. cbn [bind fst snd] in *. destruct (K _ eq_refl) as [K1 _]. cbn [fst] in K1. pose proof (finish_near _ _ _ E) as N. apply finish_told in E as (pre' & bar' & OUT').
  assert (g = g0) as ->.
  { pose proof (eq_trans (eq_sym OUT') OUT) as Q. change [g; bar'] with ([g] ++ [bar']) in Q. change [g0; bar] with ([g0] ++ [bar]) in Q. rewrite !app_assoc in Q. apply app_inj_tail in Q as [Q _]. apply app_inj_tail in Q as [_ Q]. exact Q. }
  apply finish_well; [exact G|eapply in_order_kept; eassumption|]. destruct N as (_ & _ & N3 & N4 & _). destruct ARG as [-> | ->]; cbn [truthful emit ml_sel ml_diff]; [split|]; congruence.
Qed.
Lemma raising L k s F s' v' : ends told_true raise s F -> F silent = Ok s' -> shows s' v' -> gentle L k -> in_order_for L s -> goes_well (in_order_for L) (F k).
Proof.
  intros (P & K & EF) E V G O. rewrite EF in E |- *. step E. destruct a as [s1 g]. cbn [bind fst snd] in *. destruct (K _ eq_refl) as [K1 K2]. cbn [fst] in K1. unfold raise, silent in E. injection E as <-. apply raise_well; [exact G| |exact K2]. eapply in_order_kept; [exact O|exact K1| |exact V]. repeat split.
Qed.

(** * The calls that are offered *)
Lemma offered_step s v op h : shows s v -> call_of s op = Ok h -> exists v', vstep v op = Some v'.
Proof.
  intros V E. destruct op as [| | | |i j|j|b|b| | |b|e|envs|b]; cbn [vstep]; eauto.
  - cbn [call_of] in E. step E. step E. step E. step E. pose proof V as W. apply shows_split in W as (_ & l & m & T & _). unfold the_list in E0. rewrite (proj1 T) in E0. injection E0 as <-.
    assert (N : nth_error l i = Some a0). { unfold model_at in E1. rewrite Nat2Z.id in E1. destruct (Z.ltb _ _) in E1; [|]; try discriminate; destruct (nth_error l i); try discriminate; injection E1 as <-; reflexivity. }
    destruct (tidy_at _ _ _ _ _ T N) as (x & f & X & F & M). assert (x = a1) as -> by congruence.
    assert (L : (j < size_of v i)%nat).
    { unfold size_of, now_of. rewrite F. rewrite <- (ms_len _ _ _ M). unfold diff_at in E3. rewrite Nat2Z.id in E3. apply nth_error_Some. intros NN. rewrite NN in E3. destruct (Z.ltb _ _) in E3; discriminate. }
    destruct (Nat.ltb_spec j (size_of v i)); [eauto|lia].
  - cbn [call_of] in E. step E. destruct a as [m x]. step E. cbn [fst snd] in *. destruct (shows_facts s v V) as (l & m' & x' & d' & f' & y' & F).
    rewrite (facts_selected _ _ _ _ _ _ _ _ F) in E0. injection E0 as <- <-.
    assert (L : (j < size_of v (v_model v))%nat).
    { rewrite <- (facts_len _ _ _ _ _ _ _ _ F). unfold diff_at in E1. rewrite Nat2Z.id in E1. apply nth_error_Some. intros NN. rewrite NN in E1. destruct (Z.ltb _ _) in E1; discriminate. }
    destruct (Nat.ltb_spec j (size_of v (v_model v))); [eauto|lia].
Qed.
Lemma offered_run o s v op h : shows s v -> call_of s op = Ok h -> exists v' s', occur o s h = Ok s' /\ shows s' v' /\
  (moves op = true -> exists pre g bar, ml_out s' = pre ++ [g; bar] /\ (g = SetSelection (ml_sel s') (ml_diff s') \/ g = SetSelectionOf (ml_diff s'))).
Proof. intros V E. destruct (offered_step s v op h V E) as (v' & W). destruct (run_lop_ok s v op v' V W) as (s' & R & (S' & _ & _ & T)). exists v', s'. rewrite (run_call o s op h E). split; [exact R|]. split; [exact S'|]. intros MV. destruct (T MV) as (pre & g & OUT & ARG). exists (ml_out s ++ pre), g, (bar_of v'). split; [rewrite OUT, <- app_assoc; reflexivity|]. destruct ARG as [A|[A _]]; auto. Qed.

(** One model is saved. *)
Lemma save_well L k e s m : gentle L k -> in_order_for L s -> (forall l, ml_models s = Some l -> In m l) ->
  match save_model_k k e s m with Ok (s', _) => in_order_for L s' | UB _ => False | OutOfFuel => True end.
Proof.
  intros G O IN. pose proof O as ((v & V) & I & M). pose proof V as W. apply shows_split in W as (_ & l & m0 & T & _). destruct (In_nth_error l m (IN l (proj1 T))) as (i & N).
  destruct (tidy_at _ _ _ _ _ T N) as (x & f & X & F & MS). destruct (ms_save e x _ _ MS) as (r & ER & _).
  assert (RUN : exists s' b, save_model e s m = Ok (s', b)) by (unfold save_model; rewrite X; cbn [bind]; rewrite ER; cbn [bind]; eauto). destruct RUN as (s' & b & RUN).
  destruct (save_shows e s v l i m f V (proj1 T) N F s' b RUN) as (S' & M' & _). unfold save_model in RUN. rewrite X in RUN. cbn [bind] in RUN. rewrite ER in RUN. cbn [bind] in RUN.
  assert (O1 : in_order_for L (put_model s m (so_model r))).
  { split; [eexists; eapply near_shows; [|exact S']; destruct (so_error r); injection RUN as <- _; repeat split|]. split; [exact I|exact M]. }
  unfold save_model_k. rewrite X. cbn [bind]. rewrite ER. cbn [bind]. cbv zeta. destruct (so_error r).
  - pose proof (raise_well L k (Error SaveProblem) _ G O1 Logic.I) as RW. destruct (raise k (Error SaveProblem) _) as [s2| |]; cbn [bind goes_well] in *; exact RW.
  - cbn [bind]. exact O1.
Qed.
Lemma slot_save_well L k e s : gentle L k -> in_order_for L s -> goes_well (in_order_for L) (slot_save_k k e s).
Proof.
  intros G O. unfold slot_save_k. destruct (ml_sel s) as [m|] eqn:SE; [|exact O]. pose proof O as ((v & V) & _).
  assert (IN : forall l, ml_models s = Some l -> In m l).
  { intros l ML. apply shows_split in V as (_ & l' & m' & T & A & _). assert (l' = l) as -> by (destruct T; congruence). destruct A as (A1 & A2 & _). rewrite SE in A2. injection A2 as ->. eapply nth_error_In; exact A1. }
  pose proof (save_well L k e s m G O IN) as SW. destruct (save_model_k k e s m) as [[s1 b]| |]; cbn [bind]; [|exact SW|exact Logic.I]. cbv zeta. apply raise_well; [exact G| |].
  - eapply in_order_same; [..|exact SW]; destruct (ml_has_save s1); repeat split.
  - cbn [truthful]. destruct (ml_has_save s1) eqn:HS; cbn; [reflexivity|congruence].
Qed.
Lemma saves_well k envs all : gentle (Some all) k -> forall l j s, (forall m, In m l -> In m all) -> in_order_for (Some all) s ->
  match save_models_k k envs j s all l with Ok (s', _) => in_order_for (Some all) s' | UB _ => False | OutOfFuel => True end.
Proof.
  intros G. induction l as [|m l IH]; intros j s IN O; cbn [save_models_k]; [exact O|].
  assert (IM : forall l', ml_models s = Some l' -> In m l') by (intros l' M; destruct O as (_ & _ & O); rewrite O in M; injection M as <-; apply IN; now left).
  pose proof (save_well _ k (envs j) s m G O IM) as SW. destruct (save_model_k k (envs j) s m) as [[s1 [|]]| |]; cbn [bind]; try exact SW.
  assert (SL : Reentrant.same_list all s1 = true). { unfold Reentrant.same_list. destruct SW as (_ & _ & ->). destruct (list_eq_dec Nat.eq_dec all all); congruence. }
  rewrite SL. apply IH; [intros m' H; apply IN; now right|exact SW].
Qed.
Lemma first_well (P : mlist -> Prop) r : match r with Ok (s', _) => P s' | UB _ => False | OutOfFuel => True end -> goes_well P (first_k r).
Proof. destruct r as [[s' b]| |]; cbn; auto. Qed.
Lemma save_all_well L k envs s : L <> None -> gentle L k -> in_order_for L s -> goes_well (in_order_for L) (first_k (save_all_models_k k envs s)).
Proof.
  intros NL G O. apply first_well. unfold save_all_models_k. destruct (Z.eqb _ _); [exact O|]. unfold the_list. destruct L as [l|]; [|congruence]. pose proof O as (_ & _ & M). rewrite M. cbn [bind].
  apply saves_well; auto.
Qed.
Lemma acting_well L k b s (mv : mlist -> res mlist) : gentle L k -> in_order_for L s ->
  (forall s1, in_order_for L s1 -> goes_well (fun s' => in_order_for L s' /\ up_to_date s') (mv s1)) ->
  goes_well (fun s' => in_order_for L s' /\ up_to_date s')
    (do d <- difference_of s (ml_diff s); do s <- (if Bool.eqb (d_applied d) b then Ok s else slot_apply_difference_k k s b); do s <- mv s; update_actions s).
Proof.
  intros G O MV. pose proof O as ((v & V) & _). destruct (shows_facts s v V) as (l & m & x & d & f & y & F). unfold difference_of. rewrite (fa_diff _ _ _ _ _ _ _ _ F), (fa_model _ _ _ _ _ _ _ _ F). cbn [bind]. rewrite (fa_deref _ _ _ _ _ _ _ _ F). cbn [bind].
  apply (well_next (in_order_for L)).
  - destruct (Bool.eqb _ _); [exact O|]. destruct (apply_ok s v b V) as (s' & E & S' & _). eapply (raising L k s (fun k => slot_apply_difference_k k s b)); [apply ends_apply|rewrite apply_silent; exact E|exact S'|exact G|exact O].
  - intros s1 O1. apply (well_next (fun s' => in_order_for L s' /\ up_to_date s')); [apply MV, O1|]. intros s2 [O2 _]. now apply update_well.
Qed.
Lemma moved_told s s' v v' : moved s s' v v' -> exists pre g bar, ml_out s' = pre ++ [g; bar] /\ (g = SetSelection (ml_sel s') (ml_diff s') \/ g = SetSelectionOf (ml_diff s')).
Proof. intros (_ & _ & _ & g & OUT & ARG). exists (ml_out s), g, (bar_of v'). split; [exact OUT|]. destruct ARG as [A|[A _]]; auto. Qed.
Lemma next_well L k s : gentle L k -> in_order_for L s -> goes_well (fun s' => in_order_for L s' /\ up_to_date s') (slot_next_difference_k k s).
Proof. intros G O. pose proof O as ((v & V) & _). destruct (next_ok s v V) as (s' & E & M). eapply (finishing L k s (fun k => slot_next_difference_k k s)); [apply ends_next|rewrite next_silent; exact E|apply M|exact (moved_told _ _ _ _ M)|exact G|exact O]. Qed.
Lemma previous_well L k s : gentle L k -> in_order_for L s -> goes_well (fun s' => in_order_for L s' /\ up_to_date s') (slot_previous_difference_k k s).
Proof. intros G O. pose proof O as ((v & V) & _). destruct (previous_ok s v V) as (s' & E & M). eapply (finishing L k s (fun k => slot_previous_difference_k k s)); [apply ends_previous|rewrite previous_silent; exact E|apply M|exact (moved_told _ _ _ _ M)|exact G|exact O]. Qed.

Lemma offered_well o L k s op h : gentle L k -> in_order_for L s -> call_of s op = Ok h -> (saves_all op -> L <> None) ->
  goes_well (fun s' => in_order_for L s' /\ (refreshes op = true -> up_to_date s')) (occur_k k o s h).
Proof.
  intros G O E NL. pose proof O as ((v & V) & I & M). destruct (offered_run o s v op h V E) as (v' & s' & RUN & S' & TOLD).
  assert (FIN : forall F, moves op = true -> ends no_claim finish s F -> F silent = Ok s' -> (forall k, occur_k k o s h = F k) -> goes_well (fun s' => in_order_for L s' /\ (refreshes op = true -> up_to_date s')) (occur_k k o s h)).
  { intros F MV EF ES EK. rewrite EK. eapply well_weaken; [eapply finishing; [exact EF|exact ES|exact S'|exact (TOLD MV)|exact G|exact O]|]. cbv beta. tauto. }
  assert (WK : refreshes op = false -> goes_well (in_order_for L) (occur_k k o s h) -> goes_well (fun s' => in_order_for L s' /\ (refreshes op = true -> up_to_date s')) (occur_k k o s h)).
  { intros R W. eapply well_weaken; [exact W|]. intros s1 O1. split; [exact O1|]. rewrite R. discriminate. }
  assert (RUNS : occur_k silent o s h = Ok s') by (rewrite occur_silent; exact RUN).
  destruct op as [| | | |i j|j|b|b| | |b|e|envs|b]; cbn [call_of] in E.
  - injection E as <-. apply (FIN _ eq_refl (ends_next s)); [exact RUNS|reflexivity].
  - injection E as <-. apply (FIN _ eq_refl (ends_previous s)); [exact RUNS|reflexivity].
  - injection E as <-. apply (FIN _ eq_refl (ends_next_file s)); [exact RUNS|reflexivity].
  - injection E as <-. apply (FIN _ eq_refl (ends_previous_file s)); [exact RUNS|reflexivity].
  - repeat step E. injection E as <-. eapply FIN; [reflexivity|eapply ends_pair|exact RUNS|reflexivity].
  - repeat step E. injection E as <-. eapply FIN; [reflexivity|eapply ends_single|exact RUNS|reflexivity].
  - injection E as <-. apply (WK eq_refl). eapply (raising L k s (fun k => slot_apply_difference_k k s b)); [apply ends_apply|exact RUNS|exact S'|exact G|exact O].
  - injection E as <-. apply (WK eq_refl). eapply (raising L k s (fun k => slot_apply_all_k k s b)); [apply ends_apply_all|exact RUNS|exact S'|exact G|exact O].
  - injection E as <-. apply (well_weaken (fun s' => in_order_for L s' /\ up_to_date s')); [|intros s1 [H1 H2]; split; [exact H1|intros _; exact H2]]. cbn [occur_k]. unfold slot_action_apply_k.
    pose proof (acting_well L k true s (slot_next_difference_k k) G O (fun s1 O1 => next_well L k s1 G O1)) as W. unfold difference_of in *. destruct (ml_diff s) as [[m' j]|]; [|exact W]. destruct (model_of s m'); cbn [bind] in *; try exact W. destruct (deref _ _); cbn [bind] in *; try exact W.
    destruct (d_applied _); exact W.
  - injection E as <-. apply (well_weaken (fun s' => in_order_for L s' /\ up_to_date s')); [|intros s1 [H1 H2]; split; [exact H1|intros _; exact H2]]. cbn [occur_k]. unfold slot_action_unapply_k.
    pose proof (acting_well L k false s (slot_previous_difference_k k) G O (fun s1 O1 => previous_well L k s1 G O1)) as W. unfold difference_of in *. destruct (ml_diff s) as [[m' j]|]; [|exact W]. destruct (model_of s m'); cbn [bind] in *; try exact W. destruct (deref _ _); cbn [bind] in *; try exact W.
    destruct (d_applied _); exact W.
  - injection E as <-. apply (well_weaken (fun s' => in_order_for L s' /\ up_to_date s')); [|intros s1 [H1 H2]; split; [exact H1|intros _; exact H2]]. cbn [occur_k]. unfold slot_action_apply_all_k. destruct (apply_all_slot_ok s v b V) as (s1 & E1 & S1 & _).
    apply (well_next (in_order_for L)); [|intros s2 O2; now apply update_well]. eapply (raising L k s (fun k => slot_apply_all_k k s b)); [apply ends_apply_all|rewrite apply_all_silent; exact E1|exact S1|exact G|exact O].
  - injection E as <-. apply (WK eq_refl). now apply slot_save_well.
  - injection E as <-. apply (WK eq_refl). apply save_all_well; auto. apply NL. exact Logic.I.
  - injection E as <-. apply (WK eq_refl). change (occur_k k o s (HReadWrite b)) with (set_read_write s b). cbn [occur] in RUN. rewrite RUN. cbn [goes_well].
    assert (K : kept s s'). { unfold set_read_write in RUN. destruct (Bool.eqb _ _); [injection RUN as <-; apply kept_refl|]. apply kept_update in RUN. exact RUN. }
    destruct K as (K1 & K2). split; [eauto|]. split; [congruence|]. destruct L; [congruence|exact Logic.I].
Qed.

(** * Opening *)
Definition pair_well (r : res (mlist * bool)) : Prop := match r with Ok (s', _) => in_order_for None s' | UB _ => False | OutOfFuel => True end.
Lemma nothing_applied ms rw : count_true (now_of (opened ms false rw) 0) = 0.
Proof. destruct ms as [|x ms]; [reflexivity|]. apply count_repeat. Qed.
Lemma parse_well o k s diff : (forall l, Permutation (os_sort o l) l) -> patient k -> gentle None k -> readable o diff -> ml_info s <> None ->
  match parse_diff_output_k k o s diff with Ok (s', b) => b = true /\ in_order_for None s' | UB _ => False | OutOfFuel => True end.
Proof.
  intros PE PA G (p & ms & EP & EM) I. destruct (ml_info s) as [i|] eqn:EI; [clear I|congruence].
  destruct (parse_output_ok o s diff p ms i (conj PE (conj EP EM)) EI) as (s1 & l & m & E1 & T1 & A1 & D1 & _ & I1 & _).
  assert (SH : shows s1 (opened ms false (ml_rw s1))) by (eapply shows_opened; eauto).
  unfold parse_diff_output in E1. unfold parse_diff_output_k, raise at 1. rewrite (PA (DiffString diff) _ eq_refl). cbn [bind]. rewrite EP in E1 |- *. cbn [bind] in E1 |- *. cbv zeta in E1 |- *.
  match type of E1 with bind ?w _ = _ => destruct w as [j| |]; cbn [bind] in E1 |- *; try discriminate E1 end.
  destruct (ml_models (with_info _ _)) as [l0|] eqn:EL; [|discriminate E1].
  assert (MAL : forall sx, (if po_malformed p then raise k (Error Malformed) sx else Ok sx) = Ok (if po_malformed p then emit (Error Malformed) sx else sx)).
  { intros sx. destruct (po_malformed p); [|reflexivity]. unfold raise. now rewrite PA. }
  rewrite MAL. cbn [bind]. step E1. cbn [bind]. step E1. cbn [bind]. step E1. cbn [bind]. injection E1 as E1.
  assert (O : in_order_for None a0). { split; [eexists; eapply near_shows; [|exact SH]; rewrite <- E1; repeat split|]. split; [|exact Logic.I]. rewrite <- E1 in I1. cbn in I1. congruence. }
  assert (T : truthful (SetStatusBar 0 0 (model_count a0) a1 0) (emit (SetStatusBar 0 0 (model_count a0) a1 0) a0)).
  { pose proof (observed_ok _ _ SH) as [B1 B2 _ _ B5 _ _ _]. rewrite <- E1 in B1, B2, B5. cbn [truthful]. split; [exact B1|]. split; [exact B2|]. split; [reflexivity|].
    split; [match goal with H : difference_count a0 = Ok a1 |- _ => exact H end|]. rewrite B5. f_equal. apply nothing_applied. }
  pose proof (raise_well None k (SetStatusBar 0 0 (model_count a0) a1 0) a0 G O T) as W. destruct (raise k _ a0); cbn [bind goes_well] in *; auto.
Qed.
Lemma show_well k s : gentle None k -> in_order_for None s -> goes_well (in_order_for None) (show_k k s).
Proof.
  intros G O. unfold show_k, the_list. pose proof O as ((v & V) & _). pose proof (sh_all _ _ V) as (l & M & _). rewrite M. cbn [bind]. apply (well_next (in_order_for None)); [apply raise_well; [exact G|exact O|exact M]|]. intros s1 O1. apply raise_well; [exact G|exact O1|split; reflexivity].
Qed.
Lemma present_well k s : gentle None k -> in_order_for None s -> goes_well (in_order_for None) (do s <- update_actions s; show_k k s).
Proof.
  intros G O. apply (well_next (fun s' => in_order_for None s' /\ up_to_date s')); [now apply update_well|]. intros s1 [O1 _]. now apply show_well.
Qed.
Lemma clear_patient k s : patient k -> clear_k k s = Ok (clear s).
Proof. intros P. unfold clear_k, raise, clear. cbv zeta. destruct (ml_models s) eqn:M; cbn [with_models ml_models]; rewrite ?M; apply P; reflexivity. Qed.
Lemma info_clear s : ml_info (clear s) = ml_info s. Proof. unfold clear. destruct (ml_models s); reflexivity. Qed.
Lemma open_well o k s diff : (forall l, Permutation (os_sort o l) l) -> patient k -> gentle None k -> readable o diff -> ml_info s <> None ->
  match parse_and_open_k k o s diff with Ok (s', b) => b = true /\ in_order_for None s' | UB _ => False | OutOfFuel => True end.
Proof.
  intros PE P G R I. unfold parse_and_open_k. rewrite clear_patient by exact P. cbn [bind]. unfold raise at 1. rewrite (P (Status Parsing)) by reflexivity. cbn [bind].
  assert (I0 : ml_info (emit (Status Parsing) (clear s)) <> None) by (change (ml_info (clear s) <> None); now rewrite info_clear).
  pose proof (parse_well o k (emit (Status Parsing) (clear s)) diff PE P G R) as W. destruct (parse_diff_output_k k o _ diff) as [[s1 b]| |]; cbn [bind].
  - destruct W as [-> O]; [exact I0|]. pose proof (present_well k s1 G O) as PW. destruct (update_actions s1) as [s2| |]; cbn [bind goes_well] in *; auto. destruct (show_k k s2) as [s3| |]; cbn [bind goes_well] in *; auto.
    pose proof (raise_well None k (Status FinishedParsing) s3 G PW Logic.I) as RW. destruct (raise k _ s3); cbn [bind goes_well] in *; auto.
  - apply W, I0.
  - exact Logic.I.
Qed.
(** blendOriginalIntoModelList() wherever the selection is. *)
Lemma blend_shows o s v url : shows s v -> exists s' b, blend_original o s url = Ok (s', b) /\ (exists v', shows s' v') /\ ml_info s' = ml_info s.
Proof.
  intros V. pose proof V as W. apply shows_split in W as (RW & l & m & T & A & D). unfold blend_original, the_list. rewrite (proj1 T). destruct (os_is_dir o url); cbn [bind].
  - assert (ST : forall s l0 b, standing s l (v_flags v) -> (forall m, In m l0 -> In m l) -> exists s' b', blend_dir o url s l0 b = Ok (s', b') /\ (exists v', shows s' v') /\ ml_info s' = ml_info s).
    { intros s0 l0. revert s0. induction l0 as [|m1 l0 IH]; intros s0 b ST IN; cbn [blend_dir].
      - eexists _, _. split; [reflexivity|]. split; [|reflexivity]. destruct ST as (T0 & m2 & A2 & D2). exists (at_pos (mk_view (v_flags v) 0 0 (ml_rw s0)) 0 0). eapply shows_at; [reflexivity|exact T0|exact A2|exact D2].
      - destruct (In_nth_error l m1 (IN _ (or_introl eq_refl))) as (i & N). destruct ST as (T0 & _). destruct (tidy_at _ _ _ _ _ T0 N) as (x & f & X & _ & _). rewrite X. cbn [bind]. cbv zeta.
        match goal with |- context [blend_model s0 m1 ?t] => destruct (blend_model_ok s0 l _ i m1 t T0 N) as (s1 & m0 & x0 & x1 & x2 & E1 & T1 & A1 & D1 & _ & _ & _ & _ & _ & I1 & _) end. rewrite E1. cbn [bind].
        destruct (IH s1 true) as (s2 & b2 & E2 & V2 & I2); [split; [exact T1|eauto]|intros m' H; apply IN; now right|]. exists s2, b2. split; [exact E2|]. split; [exact V2|congruence]. }
    destruct l as [|m1 l0]; [destruct A as (A & _); destruct (v_model v); discriminate A|]. cbn [blend_dir].
    assert (N : nth_error (m1 :: l0) 0 = Some m1) by reflexivity. destruct (tidy_at _ _ _ _ _ T N) as (x & f & X & _ & _). rewrite X. cbn [bind]. cbv zeta.
    match goal with |- context [blend_model s m1 ?t] => destruct (blend_model_ok s _ _ 0 m1 t T N) as (s1 & m0 & x0 & x1 & x2 & E1 & T1 & A1 & D1 & _ & _ & _ & _ & _ & I1 & _) end. rewrite E1. cbn [bind].
    destruct (ST s1 l0 true) as (s2 & b2 & E2 & V2 & I2); [split; [exact T1|eauto]|intros m' H; now right|]. exists s2, b2. split; [exact E2|]. split; [exact V2|congruence].
  - destruct (os_is_file o url); cbn [bind]; [|eauto 8]. destruct l as [|m1 l0]; [destruct A as (A & _); destruct (v_model v); discriminate A|]. change (model_at (m1 :: l0) 0) with (model_at (m1 :: l0) (Z.of_nat 0)).
    rewrite (model_at_nth (m1 :: l0) 0 m1 eq_refl). cbn [bind]. assert (N : nth_error (m1 :: l0) 0 = Some m1) by reflexivity.
    destruct (blend_model_ok s _ _ 0 m1 (os_read o url) T N) as (s1 & m0 & x0 & x1 & x2 & E1 & T1 & A1 & D1 & _ & _ & _ & _ & _ & I1 & _). rewrite E1. cbn [bind]. eexists _, _. split; [reflexivity|]. split; [|exact I1].
    exists (at_pos (mk_view (v_flags v) 0 0 (ml_rw s1)) 0 0). eapply shows_at; [reflexivity|exact T1|exact A1|exact D1].
Qed.
Lemma depth_shows i s v l : shows s v -> ml_models s = Some l -> exists s', depth_and_applied i s l = Ok s' /\ (exists v', shows s' v') /\ ml_info s' = ml_info s.
Proof.
  intros V M. pose proof V as W. apply shows_split in W as (RW & l' & m & T & A & D). assert (l' = l) as -> by (destruct T; congruence). destruct T as (Ta & Tb & Tc).
  destruct (depth_ok i l s _ Tb Tc) as (s2 & E2 & F2 & B2 & OT2 & SL2 & I2 & P2 & O2). exists s2. split; [exact E2|]. split; [|exact I2]. destruct SL2 as (L1 & L2 & L3 & L4 & L5 & L6 & L7). destruct A as (Aa & Ab & Ac).
  exists (mk_view (map (applied_now (in_applied i)) (v_flags v)) (v_model v) (v_diff v) (v_rw v)). apply shows_split. cbn [v_rw v_flags v_model v_diff]. split; [congruence|]. exists l, m.
  split; [split; [congruence|split; [exact Tb|exact F2]]|]. split; [split; [exact Aa|split; congruence]|].
  destruct D as (x & d & X & Y1 & Y2 & Y3 & Y4). destruct (B2 m x (nth_error_In _ _ Aa) X) as (x' & X' & _ & (Z1 & Z2 & Z3)). exists x', d. split; [exact X'|]. rewrite Z1, Z2, Z3, L3. auto.
Qed.
Lemma in_order_none s' v' (s : mlist) : shows s' v' -> ml_info s' = ml_info s -> ml_info s <> None -> in_order_for None s'.
Proof. intros V E I. split; [eauto|]. split; [congruence|exact Logic.I]. Qed.
Lemma blending_well o k s : (forall l, Permutation (os_sort o l) l) -> patient k -> gentle None k -> forall i, ml_info s = Some i -> readable o (os_read o (in_local_destination i)) ->
  pair_well (open_and_blend_k k o s).
Proof.
  intros PE P G i I R. unfold open_and_blend_k. rewrite clear_patient by exact P. cbn [bind]. unfold the_info at 1. rewrite info_clear, I. cbn [bind].
  pose proof (parse_well o k (clear s) _ PE P G R) as W. destruct (parse_diff_output_k k o _ _) as [[s1 b]| |]; cbn [bind pair_well].
  - destruct W as [-> O]; [rewrite info_clear; congruence|]. cbn [negb]. pose proof O as ((v & V) & I1 & _). unfold the_info. destruct (ml_info s1) as [i1|] eqn:EI1; [|congruence]. cbn [bind]. unfold the_list. pose proof (sh_all _ _ V) as (l & M & _). rewrite M. cbn [bind].
    destruct (depth_shows i1 s1 v l V M) as (s2 & E2 & (v2 & V2) & I2). rewrite E2. cbn [bind]. destruct (blend_shows o s2 v2 (in_local_source i1) V2) as (s3 & b3 & E3 & (v3 & V3) & I3). rewrite E3. cbn [bind].
    assert (O3 : in_order_for None s3) by (apply (in_order_none s3 v3 s1); [exact V3|congruence|congruence]). destruct b3; cbn [negb].
    + pose proof (present_well k s3 G O3) as PW. destruct (update_actions s3) as [s4| |]; cbn [bind goes_well] in *; auto. destruct (show_k k s4); cbn [bind goes_well] in *; auto.
    + pose proof (raise_well None k (Error NotApplied) s3 G O3 Logic.I) as RW. destruct (raise k _ s3); cbn [bind goes_well] in *; auto.
  - apply W. rewrite info_clear. congruence.
  - exact Logic.I.
Qed.
Lemma finished_well o k s st out err : (forall l, Permutation (os_sort o l) l) -> patient k -> gentle None k -> ml_info s <> None -> ml_process s = true -> readable o out ->
  goes_well (fun s' => in_order_for None s' /\ ml_process s' = false) (slot_diff_process_finished_k k o s true st out err).
Proof.
  intros PE P G I PR R. unfold slot_diff_process_finished_k. rewrite PR. cbn [negb]. unfold raise at 1. rewrite (P (Status Parsing)) by reflexivity. cbn [bind].
  pose proof (parse_well o k (emit (Status Parsing) s) out PE P G R I) as W. destruct (parse_diff_output_k k o _ out) as [[s1 b]| |]; cbn [bind]; [|exact W|exact Logic.I]. destruct W as [-> O]. cbn [negb].
  assert (END : goes_well (in_order_for None) (do s2 <- (do i <- the_info s1; do s2 <- (if mode_eqb (in_mode i) ShowingDiff then Ok s1 else do r <- blend_original o s1 (in_local_source i); Ok (fst r)); do s3 <- update_actions s2; show_k k s3); raise k (Status FinishedParsing) s2)).
  { pose proof O as ((v & V) & I1 & _). unfold the_info. destruct (ml_info s1) as [i1|] eqn:EI1; [|congruence]. cbn [bind]. apply (well_next (in_order_for None)); [|intros s2 O2; apply raise_well; [exact G|exact O2|exact Logic.I]].
    destruct (mode_eqb _ _); cbn [bind]; [now apply present_well|]. destruct (blend_shows o s1 v (in_local_source i1) V) as (s3 & b3 & E3 & (v3 & V3) & I3). rewrite E3. cbn [bind fst]. apply present_well; [exact G|]. apply (in_order_none s3 v3 s1); [exact V3|congruence|congruence]. }
  eapply well_next; [exact END|]. intros s2 ((v & V) & I2 & _). cbn [goes_well]. split; [|reflexivity]. split; [exists v; eapply near_shows; [|exact V]; repeat split|]. split; [exact I2|exact Logic.I].
Qed.
Lemma opening_well o k s h : (forall l, Permutation (os_sort o l) l) -> patient k -> gentle None k -> in_order_for None s -> opening o s h -> goes_well (in_order_for None) (occur_k k o s h).
Proof.
  intros PE P G O H. pose proof O as (_ & I & _). destruct h; cbn [opening] in H; try contradiction; cbn [occur_k]; apply first_well.
  - destruct file as [|c file]; cbn [open_diff_k]; [exact O|]. pose proof (open_well o k s _ PE P G H I) as W. destruct (parse_and_open_k _ _ _ _) as [[s1 b]| |]; [apply W|exact W|exact Logic.I].
  - pose proof (open_well o k s _ PE P G H I) as W. destruct (parse_and_open_k _ _ _ _) as [[s1 b]| |]; [apply W|exact W|exact Logic.I].
  - destruct H as (i & EI & R). exact (blending_well o k s PE P G i EI R).
Qed.
Lemma allowed_well o L k s h : (forall l, Permutation (os_sort o l) l) -> (L = None -> patient k) -> gentle L k -> in_order_for L s -> may_call o L s h -> goes_well (in_order_for L) (occur_k k o s h).
Proof.
  intros PE P G O [(op & E & NL)|[-> H]]; [|apply opening_well; auto]. eapply well_weaken; [eapply offered_well; eassumption|]. cbv beta. tauto.
Qed.
Lemma nested_gentle o L calls : (forall l, Permutation (os_sort o l) l) -> well_behaved o L calls -> forall n, gentle L (nested calls o n).
Proof.
  intros PE (WB & EA). assert (PA : L = None -> forall n, patient (nested calls o n)). { intros EL n g s E. destruct n; cbn [nested]; rewrite (EA EL g s E); reflexivity. }
  induction n as [|n IH]; intros g s O TG; cbn [nested].
  - pose proof (fun c H => WB g s c O TG H) as WC. clear WB TG. revert WC O. generalize (calls g s) as cs. intros cs. revert s. induction cs as [|c cs IHc]; intros s WC O; [exact O|]. destruct (c s) as [h|] eqn:EC; [exact Logic.I|]. apply IHc; [|exact O]. intros c' H. apply WC. now right.
  - pose proof (fun c H => WB g s c O TG H) as WC. clear WB TG. revert WC O. generalize (calls g s) as cs. intros cs. revert s. induction cs as [|c cs IHc]; intros s WC O; [exact O|]. destruct (c s) as [h|] eqn:EC.
    + apply (well_next (in_order_for L)); [apply allowed_well; auto; eapply WC; [now left|exact O|exact EC]|]. intros s1 O1. apply IHc; [|exact O1]. intros c' H. apply WC. now right.
    + apply IHc; [|exact O]. intros c' H. apply WC. now right.
Qed.

(** * More depth changes nothing *)
Definition le {A} (a b : res A) : Prop := a = OutOfFuel \/ a = b.
Definition le_slots (k k' : slots) : Prop := forall g s, le (k g s) (k' g s).
Lemma le_refl {A} (a : res A) : le a a. Proof. now right. Qed.
Lemma le_bind {A B} (w w' : res A) (f f' : A -> res B) : le w w' -> (forall a, le (f a) (f' a)) -> le (bind w f) (bind w' f').
Proof. intros [-> | ->] H; [now left|]. destruct w'; cbn [bind]; [apply H|apply le_refl|apply le_refl]. Qed.
Ltac mono1 := first
  [ assumption | apply le_refl
  | match goal with H : le_slots ?k ?k' |- le (raise ?k _ _) (raise ?k' _ _) => apply H end
  | match goal with |- le (bind _ _) (bind _ _) => apply le_bind; [|intros ?] end
  | match goal with |- le (match ?x with _ => _ end) (match ?x with _ => _ end) => destruct x end
  | progress cbv zeta
  | match goal with H : forall s, le _ _ |- _ => apply H end ].
Ltac mono := repeat mono1.
Section Mono.
  Context (k k' : slots) (M : le_slots k k').
  Lemma le_bar s : le (status_bar_k k s) (status_bar_k k' s). Proof. unfold status_bar_k. mono. Qed.
  Lemma le_announce s : le (announce_k k s) (announce_k k' s). Proof. unfold announce_k. mono; apply le_bar. Qed.
  Lemma le_announce_difference s : le (announce_difference_k k s) (announce_difference_k k' s). Proof. unfold announce_difference_k. mono; apply le_bar. Qed.
  Lemma le_pair s m d : le (slot_selection_changed_k k s m d) (slot_selection_changed_k k' s m d). Proof. unfold slot_selection_changed_k. mono; apply le_bar. Qed.
  Lemma le_single s d : le (slot_difference_changed_k k s d) (slot_difference_changed_k k' s d). Proof. unfold slot_difference_changed_k. mono; apply le_bar. Qed.
  Lemma le_next_file s : le (slot_next_model_k k s) (slot_next_model_k k' s). Proof. unfold slot_next_model_k. mono; apply le_announce. Qed.
  Lemma le_previous_file s : le (slot_previous_model_k k s) (slot_previous_model_k k' s). Proof. unfold slot_previous_model_k. mono; apply le_announce. Qed.
  Lemma le_next s : le (slot_next_difference_k k s) (slot_next_difference_k k' s). Proof. unfold slot_next_difference_k. mono; first [apply le_announce|apply le_announce_difference]. Qed.
  Lemma le_previous s : le (slot_previous_difference_k k s) (slot_previous_difference_k k' s). Proof. unfold slot_previous_difference_k. mono; first [apply le_announce|apply le_announce_difference]. Qed.
  Lemma le_apply s b : le (slot_apply_difference_k k s b) (slot_apply_difference_k k' s b). Proof. unfold slot_apply_difference_k. mono. Qed.
  Lemma le_apply_all s b : le (slot_apply_all_k k s b) (slot_apply_all_k k' s b). Proof. unfold slot_apply_all_k. mono. Qed.
  Lemma le_act_apply s : le (slot_action_apply_k k s) (slot_action_apply_k k' s). Proof. unfold slot_action_apply_k. mono; first [apply le_apply|apply le_next]. Qed.
  Lemma le_act_unapply s : le (slot_action_unapply_k k s) (slot_action_unapply_k k' s). Proof. unfold slot_action_unapply_k. mono; first [apply le_apply|apply le_previous]. Qed.
  Lemma le_act_all s b : le (slot_action_apply_all_k k s b) (slot_action_apply_all_k k' s b). Proof. unfold slot_action_apply_all_k. mono; apply le_apply_all. Qed.
  Lemma le_save e s m : le (save_model_k k e s m) (save_model_k k' e s m). Proof. unfold save_model_k. mono. Qed.
  Lemma le_slot_save e s : le (slot_save_k k e s) (slot_save_k k' e s). Proof. unfold slot_save_k. mono; apply le_save. Qed.
  Lemma le_saves envs all : forall l j s, le (save_models_k k envs j s all l) (save_models_k k' envs j s all l).
  Proof. induction l as [|m l IH]; intros j s; cbn [save_models_k]; [apply le_refl|]. apply le_bind; [apply le_save|]. intros [s1 b]. mono; apply IH. Qed.
  Lemma le_save_all envs s : le (save_all_models_k k envs s) (save_all_models_k k' envs s). Proof. unfold save_all_models_k. mono; apply le_saves. Qed.
  Lemma le_clear s : le (clear_k k s) (clear_k k' s). Proof. unfold clear_k. mono. Qed.
  Lemma le_parse o s t : le (parse_diff_output_k k o s t) (parse_diff_output_k k' o s t). Proof. unfold parse_diff_output_k. mono. Qed.
  Lemma le_show s : le (show_k k s) (show_k k' s). Proof. unfold show_k. mono. Qed.
  Lemma le_open o s t : le (parse_and_open_k k o s t) (parse_and_open_k k' o s t). Proof. unfold parse_and_open_k. mono; first [apply le_clear|apply le_parse|apply le_show]. Qed.
  Lemma le_finished o s b st out err : le (slot_diff_process_finished_k k o s b st out err) (slot_diff_process_finished_k k' o s b st out err).
  Proof. unfold slot_diff_process_finished_k. mono; first [apply le_parse|apply le_show]. Qed.
  Lemma le_blend o s : le (open_and_blend_k k o s) (open_and_blend_k k' o s). Proof. unfold open_and_blend_k. mono; first [apply le_clear|apply le_parse|apply le_show]. Qed.
  Lemma le_mode s : le (compare_mode_k k s) (compare_mode_k k' s). Proof. unfold compare_mode_k. mono; apply le_clear. Qed.
  Lemma le_compare o s : le (compare_k k o s) (compare_k k' o s). Proof. unfold compare_k. mono; first [apply le_mode|apply le_blend]. Qed.
  Lemma le_open_diff o s f : le (open_diff_k k o s f) (open_diff_k k' o s f). Proof. unfold open_diff_k. mono; apply le_open. Qed.
  Lemma le_first (a b : res (mlist * bool)) : le a b -> le (first_k a) (first_k b). Proof. intros H. unfold first_k. apply le_bind; [exact H|]. intros ?. apply le_refl. Qed.
  Lemma le_occur o s h : le (occur_k k o s h) (occur_k k' o s h).
  Proof.
    destruct h; cbn [occur_k]; try (apply le_refl); try apply le_first;
      first [ apply le_next | apply le_previous | apply le_next_file | apply le_previous_file | apply le_pair | apply le_single | apply le_apply | apply le_apply_all | apply le_act_apply | apply le_act_unapply
            | apply le_act_all | apply le_slot_save | apply le_save | apply le_save_all | apply le_clear | apply le_show | apply le_compare | apply le_open_diff | apply le_open | apply le_blend | apply le_parse | apply le_finished | idtac ].
    - unfold refresh_k. mono; apply le_mode.
    - unfold swap_k. mono; apply le_mode.
  Qed.
End Mono.
Lemma le_nested calls o : forall n, le_slots (nested calls o n) (nested calls o (S n)).
Proof.
  induction n as [|n IH]; intros g s; cbn [nested].
  - generalize (calls g s) as cs. intros cs. revert s. induction cs as [|c cs IHc]; intros s; [apply le_refl|]. destruct (c s); [now left|apply IHc].
  - generalize (calls g s) as cs. intros cs. revert s. induction cs as [|c cs IHc]; intros s; [apply le_refl|]. destruct (c s) as [h|]; [|apply IHc]. apply le_bind; [apply le_occur; exact IH|]. intros s1. apply IHc.
Qed.
Lemma le_deeper calls o n m : le_slots (nested calls o n) (nested calls o (m + n)).
Proof.
  induction m as [|m IH]; [intros g s; apply le_refl|]. intros g s. destruct (IH g s) as [E|E]; [now left|]. rewrite E. apply le_nested.
Qed.

(** * A selection is told with its arguments *)
Lemma pair_told s m d s' : slot_selection_changed s m d = Ok s' -> exists s1, forall k, slot_selection_changed_k k s m d = finish k (SetSelection m d) s1.
Proof.
  unfold slot_selection_changed. intros H. unfold slot_selection_changed_k. cbv zeta in *. step H. cbn [bind]. destruct m as [m'|]; [|discriminate]. step H. cbn [bind]. step H. cbn [bind]. destruct a1 as [s2 ok].
  match type of H with bind ?w _ = _ => destruct w as [s3| |]; cbn [bind] in H |- *; try discriminate H end. exists s3. reflexivity.
Qed.
