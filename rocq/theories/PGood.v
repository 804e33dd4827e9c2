(** No operation on an open list makes a pointer of a model dangle. *)
From Coq Require Import String.
From Verif Require Import Base QtStr Diff Save Parser LinesChanged SpecHistory SpecPatch SpecParse Blend SpecBlend Info ModelList SpecList SpecCalls PHistory PEditLines PUnifiedDoc PBlend PSave PModelState PList PKin PropsCalls.
Local Open Scope Z_scope.

Definition tame (x y : dmodel) : Prop := pointers_good x -> pointers_good y.
Lemma tame_refl x : tame x x. Proof. exact (fun G => G). Qed.
Lemma tame_trans x y z : tame x y -> tame y z -> tame x z. Proof. unfold tame. auto. Qed.
Lemma tame_kin x y : kin x y -> dm_sel y = dm_sel x -> dm_index y = dm_index x -> tame x y. Proof. intros K S I G. eapply kin_good; eauto. Qed.
Lemma tame_first x y k : first_difference x = Ok (y, k) -> tame x y.
Proof. unfold first_difference. intros H G. step H. injection H as <- <-. apply at_good; auto. lia. Qed.
Lemma tame_last x y k : last_difference x = Ok (y, k) -> tame x y.
Proof.
  unfold last_difference. intros H G. step H. injection H as <- <-. apply at_good; auto. unfold diff_at in E. destruct (Z.ltb_spec (Z.of_nat (length (dm_diffs x)) - 1) 0); [discriminate|lia].
Qed.
Lemma tame_next x y k : next_difference x = Ok (y, k) -> tame x y.
Proof.
  unfold next_difference. intros H G. pose proof G as (_ & _ & _ & _ & I). destruct (Z.ltb _ _); [step H|]; injection H as <- _; [apply at_good; auto; lia|apply select_good; auto; [lia|discriminate]].
Qed.
Lemma tame_prev x y k : prev_difference x = Ok (y, k) -> tame x y.
Proof.
  unfold prev_difference. intros H G. pose proof G as (_ & _ & _ & _ & I). destruct (Z.ltb_spec 0 (dm_index x)), (Z.ltb_spec (dm_index x - 1) (Z.of_nat (length (dm_diffs x)))); cbn [andb] in H; try step H; injection H as <- _.
  all: first [apply at_good; [exact G|lia|assumption]|apply select_good; [exact G|lia|discriminate]].
Qed.
Lemma tame_set x i y ok : set_selected_difference x i = (y, ok) -> tame x y.
Proof. intros H G. pose proof (set_selected_good x i G) as Q. now rewrite H in Q. Qed.
Lemma tame_apply x b y : apply_difference x b = Ok y -> tame x y.
Proof.
  intros H. eapply tame_kin; [eapply kin_apply; exact H|..].
  all: unfold apply_difference in H; destruct (dm_sel x) eqn:S; [|discriminate]; step H; destruct (Bool.eqb _ _); [injection H as <-; congruence|]; apply apply_id_state in H as [A B]; rewrite ?A, ?B; cbn; congruence.
Qed.
Lemma tame_apply_all x b y : apply_all x b = Ok y -> tame x y.
Proof. intros H. eapply tame_kin; [eapply kin_apply_all; exact H|..]; unfold apply_all in H; step H; injection H as <-; reflexivity. Qed.
Lemma tame_save e x o : save_destination e x = Ok o -> tame x (so_model o).
Proof.
  intros H. eapply tame_kin; [eapply kin_save; exact H|..]; unfold save_destination in H; step H.
  all: repeat match type of H with (if ?b then _ else _) = _ => destruct b | bind _ _ = _ => step H end; injection H as <-; reflexivity.
Qed.

(** * The list *)
Definition mild (s s' : mlist) : Prop :=
  ml_info s' = ml_info s /\ ml_models s' = ml_models s /\ forall m x, model_of s m = Ok x -> exists y, model_of s' m = Ok y /\ tame x y.
Lemma mild_ext s s' : ml_heap s' = ml_heap s -> ml_info s' = ml_info s -> ml_models s' = ml_models s -> mild s s'.
Proof. intros H I M. split; [exact I|]. split; [exact M|]. intros m x E. exists x. split; [|apply tame_refl]. unfold model_of in *. now rewrite H. Qed.
Lemma mild_refl s : mild s s. Proof. now apply mild_ext. Qed.
Lemma mild_trans a b c : mild a b -> mild b c -> mild a c.
Proof.
  intros (I & M & H) (I' & M' & H'). split; [congruence|]. split; [congruence|]. intros m x E. destruct (H m x E) as (y & Y & K). destruct (H' m y Y) as (z & Z & K'). eauto using tame_trans.
Qed.
Lemma mild_put s m x y : model_of s m = Ok x -> tame x y -> mild s (put_model s m y).
Proof.
  intros E K. split; [reflexivity|]. split; [reflexivity|]. intros m' x' E'. destruct (Nat.eq_dec m m') as [<-|N].
  - rewrite E in E'. injection E' as <-. exists y. split; [eapply model_put; exact E|exact K].
  - exists x'. rewrite model_put_other by exact N. split; [exact E'|apply tame_refl].
Qed.
Lemma mild_l a b c : ml_heap b = ml_heap a -> ml_info b = ml_info a -> ml_models b = ml_models a -> mild b c -> mild a c.
Proof. intros H I M. apply mild_trans. now apply mild_ext. Qed.
Lemma mild_r a b c : mild a b -> ml_heap c = ml_heap b -> ml_info c = ml_info b -> ml_models c = ml_models b -> mild a c.
Proof. intros P H I M. eapply mild_trans; [exact P|]. now apply mild_ext. Qed.
Ltac plain_mild := first [apply mild_refl | apply mild_ext; reflexivity].
Lemma mild_update s s' : update_actions s = Ok s' -> mild s s'.
Proof.
  unfold update_actions. intros H. destruct (ml_models s), (ml_sel s), (ml_diff s); repeat step H; injection H as <-; plain_mild.
Qed.
Lemma mild_status s s' : status_bar s = Ok s' -> mild s s'.
Proof. unfold status_bar. intros H. step H. step H. destruct a0. step H. injection H as <-. plain_mild. Qed.
Lemma mild_told g s s' : (do s <- status_bar (emit g s); update_actions s) = Ok s' -> mild s s'.
Proof. intros H. step H. eapply mild_trans; [|eapply mild_update; exact H]. eapply mild_l; [..|eapply mild_status; exact E]; reflexivity. Qed.
Lemma mild_first s s' : to_first_difference s = Ok s' -> mild s s'.
Proof.
  unfold to_first_difference. intros H. step H. destruct a as [m x]. apply selected_inv in E as [_ E]. step H. destruct a as [y k]. injection H as <-.
  eapply mild_r; [eapply mild_put; [exact E|eapply tame_first; exact E0]|..]; reflexivity.
Qed.
Lemma mild_last s s' : to_last_difference s = Ok s' -> mild s s'.
Proof.
  unfold to_last_difference. intros H. step H. destruct a as [m x]. apply selected_inv in E as [_ E]. step H. destruct a as [y k]. injection H as <-.
  eapply mild_r; [eapply mild_put; [exact E|eapply tame_last; exact E0]|..]; reflexivity.
Qed.
Lemma mild_first_model s s' : first_model s = Ok s' -> mild s s'.
Proof. unfold first_model. intros H. step H. destruct a; [discriminate|]. injection H as <-. plain_mild. Qed.
Lemma mild_last_model s s' : last_model s = Ok s' -> mild s s'.
Proof. unfold last_model. intros H. step H. destruct (rev a); [discriminate|]. injection H as <-. plain_mild. Qed.
Lemma mild_next_model s s' : next_model s = Ok s' -> mild s s'.
Proof. unfold next_model. intros H. step H. destruct (Z.ltb _ _); [step H|]; injection H as <-; plain_mild. Qed.
Lemma mild_prev_model s s' : prev_model s = Ok s' -> mild s s'.
Proof. unfold prev_model. intros H. destruct (Z.ltb _ _); [step H; destruct (Z.ltb _ _); [step H|]|]; injection H as <-; plain_mild. Qed.
Lemma mild_select s m d s' b : select_in s m d = Ok (s', b) -> mild s s'.
Proof.
  unfold select_in. intros H. step H. destruct d as [[m' k]|].
  - destruct (Nat.eqb m m'); [|injection H as <- <-; plain_mild]. destruct (set_selected_difference a (Some k)) as [x ok] eqn:S. injection H as <- <-. eapply mild_put; [exact E|]. eapply tame_set. exact S.
  - destruct (set_selected_difference a None) as [x ok] eqn:S. injection H as <- <-. eapply mild_put; [exact E|]. eapply tame_set. exact S.
Qed.
Lemma mild_select_model s m s' b : set_selected_model s m = Ok (s', b) -> mild s s'.
Proof.
  unfold set_selected_model. intros H. destruct (sel_eqb _ _); [step H; injection H as <- _; now apply mild_update|]. step H. destruct (Z.ltb _ _); [injection H as <- _; plain_mild|]. step H. injection H as <- _.
  eapply mild_l; [..|eapply mild_update; exact E0]; reflexivity.
Qed.
Lemma mild_pair s m d s' : slot_selection_changed s m d = Ok s' -> mild s s'.
Proof.
  unfold slot_selection_changed. intros H. step H. destruct m as [m|]; [|discriminate]. step H. destruct a0 as [s1 b1]. apply mild_select in E0. step H. destruct a0 as [s2 b2]. apply mild_select_model in E1.
  step H. apply mild_told in H. eapply mild_l; [..|eapply mild_trans; [exact E0|eapply mild_trans; [exact E1|eapply mild_trans; [|exact H]]]]; try reflexivity. clear H.
  destruct b2.
  - destruct (ml_sel s2); [|discriminate]. step E2. destruct a1 as [s3 b3]. apply mild_select in E3. destruct b3; [injection E2 as <-; exact E3|]. eapply mild_trans; [exact E3|]. now apply mild_first.
  - step E2. eapply mild_trans; [eapply mild_first_model; exact E3|]. now apply mild_first.
Qed.
Lemma mild_single s d s' : slot_difference_changed s d = Ok s' -> mild s s'.
Proof.
  unfold slot_difference_changed. cbn [with_diff ml_sel]. intros H. destruct (ml_sel s); [|discriminate]. step H. destruct a as [s1 b1]. apply mild_select in E. step H. apply mild_told in H.
  eapply mild_l; [..|eapply mild_trans; [exact E|eapply mild_trans; [|exact H]]]; try reflexivity. destruct b1; [injection E0 as <-; apply mild_refl|now apply mild_first].
Qed.
Lemma mild_slot_previous_model s s' : slot_previous_model s = Ok s' -> mild s s'.
Proof.
  unfold slot_previous_model, announce. intros H. step H. apply mild_prev_model in E. step H. step H. apply mild_told in H. apply mild_first in E1.
  eapply mild_trans; [exact E|]. eapply mild_trans; [|eapply mild_trans; [exact E1|exact H]]. destruct (ml_sel a); [injection E0 as <-; apply mild_refl|now apply mild_first_model].
Qed.
Lemma mild_slot_next_model s s' : slot_next_model s = Ok s' -> mild s s'.
Proof.
  unfold slot_next_model, announce. intros H. step H. apply mild_next_model in E. step H. step H. apply mild_told in H. apply mild_first in E1.
  eapply mild_trans; [exact E|]. eapply mild_trans; [|eapply mild_trans; [exact E1|exact H]]. destruct (ml_sel a); [injection E0 as <-; apply mild_refl|now apply mild_last_model].
Qed.
Lemma mild_slot_previous s s' : slot_previous_difference s = Ok s' -> mild s s'.
Proof.
  unfold slot_previous_difference, announce, announce_difference. intros H. step H. destruct a as [m x]. apply selected_inv in E as [_ E]. step H. destruct a as [y k].
  assert (K : tame x y) by (eapply tame_prev; exact E0).
  apply (mild_trans _ _ _ (mild_put _ _ _ _ E K)). destruct k as [k|]; [eapply mild_l; [..|eapply mild_told; exact H]; reflexivity|]. step H. apply mild_prev_model in E1.
  eapply mild_l; [..|eapply mild_trans; [exact E1|]]; try reflexivity. destruct (ml_sel a).
  - step H. apply mild_told in H. eapply mild_trans; [eapply mild_last; exact E2|exact H].
  - step H. step H. apply mild_told in H. eapply mild_trans; [eapply mild_first_model; exact E2|]. eapply mild_trans; [eapply mild_first; exact E3|exact H].
Qed.
Lemma mild_slot_next s s' : slot_next_difference s = Ok s' -> mild s s'.
Proof.
  unfold slot_next_difference, announce, announce_difference. intros H. step H. destruct a as [m x]. apply selected_inv in E as [_ E]. step H. destruct a as [y k].
  assert (K : tame x y) by (eapply tame_next; exact E0).
  apply (mild_trans _ _ _ (mild_put _ _ _ _ E K)). destruct k as [k|]; [eapply mild_l; [..|eapply mild_told; exact H]; reflexivity|]. step H. apply mild_next_model in E1.
  eapply mild_l; [..|eapply mild_trans; [exact E1|]]; try reflexivity. destruct (ml_sel a).
  - step H. apply mild_told in H. eapply mild_trans; [eapply mild_first; exact E2|exact H].
  - step H. step H. apply mild_told in H. eapply mild_trans; [eapply mild_last_model; exact E2|]. eapply mild_trans; [eapply mild_last; exact E3|exact H].
Qed.
Lemma mild_apply s b s' : slot_apply_difference s b = Ok s' -> mild s s'.
Proof.
  unfold slot_apply_difference. intros H. step H. destruct a as [m x]. apply selected_inv in E as [_ E]. step H. injection H as <-. eapply mild_r; [eapply mild_put; [exact E|eapply tame_apply; exact E0]|..]; reflexivity.
Qed.
Lemma mild_apply_all s b s' : slot_apply_all s b = Ok s' -> mild s s'.
Proof.
  unfold slot_apply_all. intros H. step H. destruct a as [m x]. apply selected_inv in E as [_ E]. step H. injection H as <-. eapply mild_r; [eapply mild_put; [exact E|eapply tame_apply_all; exact E0]|..]; reflexivity.
Qed.
Lemma mild_save e s m s' b : save_model e s m = Ok (s', b) -> mild s s'.
Proof.
  unfold save_model. intros H. step H. step H. injection H as <- _. eapply mild_r; [eapply mild_put; [exact E|eapply tame_save; exact E0]|..]; destruct (so_error _); reflexivity.
Qed.
Lemma mild_slot_save e s s' : slot_save e s = Ok s' -> mild s s'.
Proof.
  unfold slot_save. intros H. destruct (ml_sel s); [|injection H as <-; apply mild_refl]. step H. destruct a as [s1 b]. apply mild_save in E. injection H as <-.
  eapply mild_r; [exact E|..]; destruct (ml_has_save s1); reflexivity.
Qed.
Lemma mild_save_models envs : forall l k s s' b, save_models envs k s l = Ok (s', b) -> mild s s'.
Proof.
  induction l as [|m l IH]; intros k s s' b H; cbn [save_models] in H; [injection H as <- _; apply mild_refl|]. step H. destruct a as [s1 b1]. apply mild_save in E.
  destruct b1; [|injection H as <- _; exact E]. eapply mild_trans; [exact E|]. eapply IH. exact H.
Qed.
