(** What most calls on a list leave as it is: which models live, the list of them, whether there are editing actions, and that these are off. *)
From Coq Require Import String.
From Verif Require Import Base QtStr Diff Save Parser SpecHistory SpecPatch SpecParse Blend SpecBlend Info ModelList SpecList PHistory PEditLines PUnifiedDoc PBlend PSave PModelState PList PKin.
Local Open Scope Z_scope.

Definition alive (s : mlist) (m : nat) : Prop := exists x, model_of s m = Ok x.
Definition editing_off (a : actions) : Prop := ac_apply a = false /\ ac_unapply a = false /\ ac_apply_all a = false /\ ac_unapply_all a = false /\ ac_save a = false.
Definition off (s : mlist) : Prop := (ml_rw s && ml_has_save s)%bool = false -> editing_off (ml_act s).
Definition far (s s' : mlist) : Prop :=
  ml_has_save s' = ml_has_save s /\ ml_rw s' = ml_rw s /\ ml_models s' = ml_models s /\ length (ml_heap s') = length (ml_heap s) /\
  (forall m, alive s m <-> alive s' m) /\ (off s -> off s').
Lemma far_ext s s' : ml_heap s' = ml_heap s -> ml_models s' = ml_models s -> ml_has_save s' = ml_has_save s -> ml_rw s' = ml_rw s -> ml_act s' = ml_act s -> far s s'.
Proof.
  intros H M S R A. split; [exact S|]. split; [exact R|]. split; [exact M|]. split; [now rewrite H|]. split.
  - intros m. unfold alive, model_of. now rewrite H.
  - unfold off. now rewrite R, S, A.
Qed.
Lemma far_refl s : far s s. Proof. now apply far_ext. Qed.
Lemma far_trans a b c : far a b -> far b c -> far a c.
Proof.
  intros (A1 & A2 & A3 & A4 & A5 & A6) (B1 & B2 & B3 & B4 & B5 & B6). do 4 (split; [congruence|]). split; [|auto]. intros m. rewrite A5. apply B5.
Qed.
Lemma update_length {A} (l : list A) : forall m x, length (update l m x) = length l.
Proof. induction l as [|a l IH]; intros [|m] x; cbn; try reflexivity. now rewrite IH. Qed.
Lemma alive_put s m x y m' : model_of s m = Ok x -> alive s m' <-> alive (put_model s m y) m'.
Proof.
  intros E. unfold alive. destruct (Nat.eq_dec m m') as [<-|N].
  - split; intros _; [exists y; eapply model_put; exact E|eauto].
  - now rewrite model_put_other by exact N.
Qed.
Lemma far_put s m x y : model_of s m = Ok x -> kin x y -> far s (put_model s m y).
Proof.
  intros E _. do 3 (split; [reflexivity|]). split; [apply update_length|]. split; [|exact (fun H => H)]. intros m'. eapply alive_put. exact E.
Qed.
Lemma far_l a b c : ml_heap b = ml_heap a -> ml_models b = ml_models a -> ml_has_save b = ml_has_save a -> ml_rw b = ml_rw a -> ml_act b = ml_act a -> far b c -> far a c.
Proof. intros H M S R A. apply far_trans. now apply far_ext. Qed.
Lemma far_r a b c : far a b -> ml_heap c = ml_heap b -> ml_models c = ml_models b -> ml_has_save c = ml_has_save b -> ml_rw c = ml_rw b -> ml_act c = ml_act b -> far a c.
Proof. intros P H M S R A. eapply far_trans; [exact P|]. now apply far_ext. Qed.
Ltac plain_far := first [apply far_refl | apply far_ext; reflexivity].
Lemma far_act s s' : ml_heap s' = ml_heap s -> ml_models s' = ml_models s -> ml_has_save s' = ml_has_save s -> ml_rw s' = ml_rw s -> (off s -> off s') -> far s s'.
Proof.
  intros H M S R A. split; [exact S|]. split; [exact R|]. split; [exact M|]. split; [now rewrite H|]. split; [|exact A].
  intros m. unfold alive, model_of. now rewrite H.
Qed.
(** After updating the actions the editing actions are off unless the list may write, whatever they were before, if there are any. *)
Lemma update_off s s' : update_actions s = Ok s' -> (ml_has_save s = true \/ off s) -> off s'.
Proof.
  unfold update_actions. intros H O. assert (R : ml_rw s' = ml_rw s /\ ml_has_save s' = ml_has_save s).
  { destruct (ml_models s), (ml_sel s), (ml_diff s); repeat step H; injection H as <-; auto. }
  destruct R as [R1 R2]. unfold off in *. rewrite R1, R2. intros Q. rewrite andb_comm in Q.
  destruct (ml_has_save s) eqn:S; cbn [andb] in Q.
  - rewrite Q in H. unfold disable_saving in H. destruct (ml_models s), (ml_sel s), (ml_diff s); repeat step H; injection H as <-; repeat split; cbn; try reflexivity; injection E as <-; reflexivity.
  - destruct O as [O|O]; [discriminate|]. specialize (O ltac:(now rewrite andb_comm)).
    destruct (ml_models s), (ml_sel s), (ml_diff s); repeat step H; injection H as <-; try (injection E as <-); exact O.
Qed.
Lemma far_update s s' : update_actions s = Ok s' -> far s s'.
Proof.
  intros H. pose proof (update_off s s' H) as O.
  assert (W : exists a, s' = with_act s a).
  { unfold update_actions in H. destruct (ml_models s), (ml_sel s), (ml_diff s); repeat step H; injection H as <-; eauto. }
  destruct W as [a ->]. apply far_act; try reflexivity. intros Q. apply O. now right.
Qed.
Lemma far_status s s' : status_bar s = Ok s' -> far s s'.
Proof. unfold status_bar. intros H. step H. step H. destruct a0. step H. injection H as <-. plain_far. Qed.
Lemma far_told g s s' : (do s <- status_bar (emit g s); update_actions s) = Ok s' -> far s s'.
Proof. intros H. step H. eapply far_trans; [|eapply far_update; exact H]. eapply far_l; [..|eapply far_status; exact E]; reflexivity. Qed.
Lemma far_first s s' : to_first_difference s = Ok s' -> far s s'.
Proof.
  unfold to_first_difference, first_difference. intros H. step H. destruct a as [m x]. apply selected_inv in E as [_ E]. step H. step E0. injection E0 as <-. injection H as <-.
  eapply far_r; [eapply far_put; [exact E|apply kin_selection]|..]; reflexivity.
Qed.
Lemma far_last s s' : to_last_difference s = Ok s' -> far s s'.
Proof.
  unfold to_last_difference, last_difference. intros H. step H. destruct a as [m x]. apply selected_inv in E as [_ E]. step H. step E0. injection E0 as <-. injection H as <-.
  eapply far_r; [eapply far_put; [exact E|apply kin_selection]|..]; reflexivity.
Qed.
Lemma far_first_model s s' : first_model s = Ok s' -> far s s'.
Proof. unfold first_model. intros H. step H. destruct a; [discriminate|]. injection H as <-. plain_far. Qed.
Lemma far_last_model s s' : last_model s = Ok s' -> far s s'.
Proof. unfold last_model. intros H. step H. destruct (rev a); [discriminate|]. injection H as <-. plain_far. Qed.
Lemma far_next_model s s' : next_model s = Ok s' -> far s s'.
Proof. unfold next_model. intros H. step H. destruct (Z.ltb _ _); [step H|]; injection H as <-; plain_far. Qed.
Lemma far_prev_model s s' : prev_model s = Ok s' -> far s s'.
Proof. unfold prev_model. intros H. destruct (Z.ltb _ _); [step H; destruct (Z.ltb _ _); [step H|]|]; injection H as <-; plain_far. Qed.
Lemma far_select s m d s' b : select_in s m d = Ok (s', b) -> far s s'.
Proof.
  unfold select_in. intros H. step H. destruct d as [[m' k]|].
  - destruct (Nat.eqb m m'); [|injection H as <- <-; plain_far]. destruct (set_selected_difference a (Some k)) as [x ok] eqn:S. injection H as <- <-.
    eapply far_put; [exact E|]. unfold set_selected_difference in S. destruct (sel_eqb _ _); [injection S as <- _; apply kin_refl|]. destruct (find_id _ _); injection S as <- _; [apply kin_selection|apply kin_refl].
  - destruct (set_selected_difference a None) as [x ok] eqn:S. injection H as <- <-. eapply far_put; [exact E|]. unfold set_selected_difference in S. destruct (sel_eqb _ _); injection S as <- _; apply kin_refl.
Qed.
Lemma far_select_model s m s' b : set_selected_model s m = Ok (s', b) -> far s s'.
Proof.
  unfold set_selected_model. intros H. destruct (sel_eqb _ _); [step H; injection H as <- _; now apply far_update|]. step H. destruct (Z.ltb _ _); [injection H as <- _; plain_far|]. step H. injection H as <- _.
  eapply far_l; [..|eapply far_update; exact E0]; reflexivity.
Qed.
Lemma far_pair s m d s' : slot_selection_changed s m d = Ok s' -> far s s'.
Proof.
  unfold slot_selection_changed. intros H. step H. destruct m as [m|]; [|discriminate]. step H. destruct a0 as [s1 b1]. apply far_select in E0. step H. destruct a0 as [s2 b2]. apply far_select_model in E1.
  step H. apply far_told in H. eapply far_l; [..|eapply far_trans; [exact E0|eapply far_trans; [exact E1|eapply far_trans; [|exact H]]]]; try reflexivity. clear H.
  destruct b2.
  - destruct (ml_sel s2); [|discriminate]. step E2. destruct a1 as [s3 b3]. apply far_select in E3. destruct b3; [injection E2 as <-; exact E3|]. eapply far_trans; [exact E3|]. now apply far_first.
  - step E2. eapply far_trans; [eapply far_first_model; exact E3|]. now apply far_first.
Qed.
Lemma far_single s d s' : slot_difference_changed s d = Ok s' -> far s s'.
Proof.
  unfold slot_difference_changed. cbn [with_diff ml_sel]. intros H. destruct (ml_sel s); [|discriminate]. step H. destruct a as [s1 b1]. apply far_select in E. step H. apply far_told in H.
  eapply far_l; [..|eapply far_trans; [exact E|eapply far_trans; [|exact H]]]; try reflexivity. destruct b1; [injection E0 as <-; apply far_refl|now apply far_first].
Qed.
Lemma far_slot_previous_model s s' : slot_previous_model s = Ok s' -> far s s'.
Proof.
  unfold slot_previous_model, announce. intros H. step H. apply far_prev_model in E. step H. step H. apply far_told in H. apply far_first in E1.
  eapply far_trans; [exact E|]. eapply far_trans; [|eapply far_trans; [exact E1|exact H]]. destruct (ml_sel a); [injection E0 as <-; apply far_refl|now apply far_first_model].
Qed.
Lemma far_slot_next_model s s' : slot_next_model s = Ok s' -> far s s'.
Proof.
  unfold slot_next_model, announce. intros H. step H. apply far_next_model in E. step H. step H. apply far_told in H. apply far_first in E1.
  eapply far_trans; [exact E|]. eapply far_trans; [|eapply far_trans; [exact E1|exact H]]. destruct (ml_sel a); [injection E0 as <-; apply far_refl|now apply far_last_model].
Qed.
Lemma far_slot_previous s s' : slot_previous_difference s = Ok s' -> far s s'.
Proof.
  unfold slot_previous_difference, announce, announce_difference. intros H. step H. destruct a as [m x]. apply selected_inv in E as [_ E]. step H. destruct a as [y k].
  assert (K : kin x y). { unfold prev_difference in E0. destruct (_ && _)%bool; [step E0|]; injection E0 as <- _; apply kin_selection. }
  apply (far_trans _ _ _ (far_put _ _ _ _ E K)). destruct k as [k|]; [eapply far_l; [..|eapply far_told; exact H]; reflexivity|]. step H. apply far_prev_model in E1.
  eapply far_l; [..|eapply far_trans; [exact E1|]]; try reflexivity. destruct (ml_sel a).
  - step H. apply far_told in H. eapply far_trans; [eapply far_last; exact E2|exact H].
  - step H. step H. apply far_told in H. eapply far_trans; [eapply far_first_model; exact E2|]. eapply far_trans; [eapply far_first; exact E3|exact H].
Qed.
Lemma far_slot_next s s' : slot_next_difference s = Ok s' -> far s s'.
Proof.
  unfold slot_next_difference, announce, announce_difference. intros H. step H. destruct a as [m x]. apply selected_inv in E as [_ E]. step H. destruct a as [y k].
  assert (K : kin x y). { unfold next_difference in E0. destruct (Z.ltb _ _); [step E0|]; injection E0 as <- _; apply kin_selection. }
  apply (far_trans _ _ _ (far_put _ _ _ _ E K)). destruct k as [k|]; [eapply far_l; [..|eapply far_told; exact H]; reflexivity|]. step H. apply far_next_model in E1.
  eapply far_l; [..|eapply far_trans; [exact E1|]]; try reflexivity. destruct (ml_sel a).
  - step H. apply far_told in H. eapply far_trans; [eapply far_first; exact E2|exact H].
  - step H. step H. apply far_told in H. eapply far_trans; [eapply far_last_model; exact E2|]. eapply far_trans; [eapply far_last; exact E3|exact H].
Qed.
Lemma far_apply s b s' : slot_apply_difference s b = Ok s' -> far s s'.
Proof.
  unfold slot_apply_difference. intros H. step H. destruct a as [m x]. apply selected_inv in E as [_ E]. step H. injection H as <-. eapply far_r; [eapply far_put; [exact E|eapply kin_apply; exact E0]|..]; reflexivity.
Qed.
Lemma far_apply_all s b s' : slot_apply_all s b = Ok s' -> far s s'.
Proof.
  unfold slot_apply_all. intros H. step H. destruct a as [m x]. apply selected_inv in E as [_ E]. step H. injection H as <-. eapply far_r; [eapply far_put; [exact E|eapply kin_apply_all; exact E0]|..]; reflexivity.
Qed.
Lemma far_save e s m s' b : save_model e s m = Ok (s', b) -> far s s'.
Proof.
  unfold save_model. intros H. step H. step H. injection H as <- _. eapply far_r; [eapply far_put; [exact E|eapply kin_save; exact E0]|..]; destruct (so_error _); reflexivity.
Qed.
Lemma far_slot_save e s s' : slot_save e s = Ok s' -> far s s'.
Proof.
  unfold slot_save. intros H. destruct (ml_sel s); [|injection H as <-; apply far_refl]. step H. destruct a as [s1 b]. apply far_save in E. injection H as <-.
  eapply far_trans; [exact E|]. destruct (ml_has_save s1) eqn:S; [|plain_far]. apply far_act; try reflexivity.
  unfold off. cbn [emit with_act ml_rw ml_has_save ml_act]. intros Q P. destruct (Q P) as (A & B & C & D & _). repeat split; assumption.
Qed.
Lemma far_save_models envs : forall l k s s' b, save_models envs k s l = Ok (s', b) -> far s s'.
Proof.
  induction l as [|m l IH]; intros k s s' b H; cbn [save_models] in H; [injection H as <- _; apply far_refl|]. step H. destruct a as [s1 b1]. apply far_save in E.
  destruct b1; [|injection H as <- _; exact E]. eapply far_trans; [exact E|]. eapply IH. exact H.
Qed.
