(** What no operation on an open list changes: the models but for the state of their differences. *)
From Coq Require Import String.
From Verif Require Import Base QtStr Diff Save Parser SpecHistory SpecPatch SpecParse Blend SpecBlend Info ModelList SpecList PHistory PEditLines PUnifiedDoc PBlend PSave PModelState PList.
Local Open Scope Z_scope.

Record kin (x y : dmodel) : Prop := {
  kn_names : dm_source y = dm_source x /\ dm_destination y = dm_destination x /\ dm_spath y = dm_spath x /\ dm_dpath y = dm_dpath x /\
             dm_sfile y = dm_sfile x /\ dm_dfile y = dm_dfile x;
  kn_hunks : dm_hunks y = dm_hunks x;
  kn_diffs : dm_diffs y = dm_diffs x;
  kn_store : Forall2 similar (dm_store x) (dm_store y) }.
Lemma similar_all l : Forall2 similar l l.
Proof. induction l; constructor; auto using similar_refl. Qed.
Lemma kin_refl x : kin x x.
Proof. split; auto 10. apply similar_all. Qed.
Lemma kin_trans x y z : kin x y -> kin y z -> kin x z.
Proof.
  intros [(A1 & A2 & A3 & A4 & A5 & A6) B C D] [(A1' & A2' & A3' & A4' & A5' & A6') B' C' D']. split; [repeat split; congruence|congruence|congruence|].
  clear -D D'. revert D'. generalize (dm_store z). induction D as [|a b l l' S _ IH]; intros k F; inversion F; subst; constructor; eauto using similar_trans.
Qed.
Lemma kin_selection x i s : kin x (with_selection x i s).
Proof. split; cbn; auto 10. apply similar_all. Qed.
Lemma kin_applied x z : kin x (with_applied x z).
Proof. split; cbn; auto 10. apply similar_all. Qed.
Lemma kin_store x st : Forall2 similar (dm_store x) st -> kin x (with_store x st).
Proof. intros F. split; cbn; auto 10. Qed.
Lemma similar_update st i d d' : nth_error st i = Some d -> similar d d' -> Forall2 similar st (update st i d').
Proof. intros N S. eapply Forall2_update; eauto using similar_refl. Qed.
Lemma similar_compose (a b c : list difference) : Forall2 similar a b -> Forall2 similar b c -> Forall2 similar a c.
Proof. intros F. revert c. induction F as [|x y l l' S _ IH]; intros k G; inversion G; subst; constructor; eauto using similar_trans. Qed.
Lemma similar_unsaved b d : similar d (set_unsaved b d). Proof. exists (d_track d), (d_applied d), b. now destruct d. Qed.
Lemma similar_quiet b d : similar d (apply_quietly b d).
Proof. unfold apply_quietly. destruct (Bool.eqb _ _); [apply similar_refl|]. eexists (d_track d), b, _. reflexivity. Qed.
Lemma deref_inv st i d : deref st i = Ok d -> nth_error st i = Some d.
Proof. unfold deref. destruct (nth_error st i); [congruence|discriminate]. Qed.

Ltac step H := match type of H with bind ?a _ = Ok _ => let E := fresh "E" in destruct a eqn:E; cbn [bind] in H; try discriminate H end.

Lemma clear_kin l : forall st st', clear_unsaved l st = Ok st' -> Forall2 similar st st'.
Proof.
  induction l as [|i l IH]; intros st st' H; cbn [clear_unsaved] in H; [injection H as <-; apply similar_all|]. step H. apply deref_inv in E.
  eapply similar_compose; [|eapply IH; exact H]. eapply similar_update; [exact E|apply similar_unsaved].
Qed.
Lemma shift_kin l a b : forall st st', shift_tracking l a b st = Ok st' -> Forall2 similar st st'.
Proof.
  induction l as [|i l IH]; intros st st' H; cbn [shift_tracking] in H; [injection H as <-; apply similar_all|]. step H. apply deref_inv in E.
  eapply similar_compose; [|eapply IH; exact H]. destruct (Z.ltb _ _); [|apply similar_all]. eapply similar_update; [exact E|apply similar_track].
Qed.
Lemma apply_all_kin l b : forall t st st', apply_all_loop l b t st = Ok st' -> Forall2 similar st st'.
Proof.
  induction l as [|i l IH]; intros t st st' H; cbn [apply_all_loop] in H; [injection H as <-; apply similar_all|]. step H. apply deref_inv in E.
  destruct (Bool.eqb _ _); (eapply similar_compose; [|eapply IH; exact H]); (eapply similar_update; [exact E|]); [apply similar_track|].
  eapply similar_trans; [apply similar_track|apply similar_quiet].
Qed.
Lemma kin_apply_id x i b y : apply_id x i b = Ok y -> kin x y.
Proof.
  unfold apply_id. intros H. step H. apply deref_inv in E. destruct (Bool.eqb _ _); [injection H as <-; apply kin_refl|].
  assert (K : kin x (with_store x (update (dm_store x) i (apply_quietly b a)))) by (apply kin_store; eapply similar_update; [exact E|apply similar_quiet]).
  destruct (d_connected _); [|injection H as <-; exact K]. unfold slot_difference_applied in H. step H. injection H as <-.
  eapply kin_trans; [exact K|]. apply kin_store. eapply shift_kin. exact E0.
Qed.
Lemma kin_apply x b y : apply_difference x b = Ok y -> kin x y.
Proof.
  unfold apply_difference. destruct (dm_sel x); [|discriminate]. intros H. step H. destruct (Bool.eqb _ _); [injection H as <-; apply kin_refl|].
  apply kin_apply_id in H. eapply kin_trans; [apply kin_applied|exact H].
Qed.
Lemma kin_apply_all x b y : apply_all x b = Ok y -> kin x y.
Proof. unfold apply_all. intros H. step H. injection H as <-. eapply kin_trans; [apply kin_applied|]. apply kin_store. eapply apply_all_kin. exact E. Qed.
Lemma kin_save e x o : save_destination e x = Ok o -> kin x (so_model o).
Proof.
  unfold save_destination. intros H. step H. destruct (negb a); [injection H as <-; apply kin_refl|]. destruct (negb (se_open e)); [injection H as <-; apply kin_refl|]. step H.
  destruct (negb (se_write e)); [injection H as <-; apply kin_refl|]. destruct (negb (se_close e)); [injection H as <-; apply kin_refl|].
  destruct (_ && _)%bool; [injection H as <-; apply kin_refl|]. destruct (se_copy e); [|injection H as <-; apply kin_refl]. step H. injection H as <-. cbn [so_model]. apply kin_store. eapply clear_kin. exact E1.
Qed.

(** * The list *)
Definition pres (s s' : mlist) : Prop :=
  ml_info s' = ml_info s /\ ml_models s' = ml_models s /\ forall m x, model_of s m = Ok x -> exists y, model_of s' m = Ok y /\ kin x y.
Lemma pres_ext s s' : ml_heap s' = ml_heap s -> ml_info s' = ml_info s -> ml_models s' = ml_models s -> pres s s'.
Proof. intros H I M. split; [exact I|]. split; [exact M|]. intros m x E. exists x. split; [|apply kin_refl]. unfold model_of in *. now rewrite H. Qed.
Lemma pres_refl s : pres s s. Proof. now apply pres_ext. Qed.
Lemma pres_trans a b c : pres a b -> pres b c -> pres a c.
Proof.
  intros (I & M & H) (I' & M' & H'). split; [congruence|]. split; [congruence|]. intros m x E. destruct (H m x E) as (y & Y & K). destruct (H' m y Y) as (z & Z & K'). eauto using kin_trans.
Qed.
Lemma pres_put s m x y : model_of s m = Ok x -> kin x y -> pres s (put_model s m y).
Proof.
  intros E K. split; [reflexivity|]. split; [reflexivity|]. intros m' x' E'. destruct (Nat.eq_dec m m') as [<-|N].
  - rewrite E in E'. injection E' as <-. exists y. split; [eapply model_put; exact E|exact K].
  - exists x'. rewrite model_put_other by exact N. split; [exact E'|apply kin_refl].
Qed.
Lemma pres_l a b c : ml_heap b = ml_heap a -> ml_info b = ml_info a -> ml_models b = ml_models a -> pres b c -> pres a c.
Proof. intros H I M. apply pres_trans. now apply pres_ext. Qed.
Lemma pres_r a b c : pres a b -> ml_heap c = ml_heap b -> ml_info c = ml_info b -> ml_models c = ml_models b -> pres a c.
Proof. intros P H I M. eapply pres_trans; [exact P|]. now apply pres_ext. Qed.
Ltac plain_pres := first [apply pres_refl | apply pres_ext; reflexivity].
Lemma pres_update s s' : update_actions s = Ok s' -> pres s s'.
Proof.
  unfold update_actions. intros H. destruct (ml_models s), (ml_sel s), (ml_diff s); repeat step H; injection H as <-; plain_pres.
Qed.
Lemma pres_status s s' : status_bar s = Ok s' -> pres s s'.
Proof. unfold status_bar. intros H. step H. step H. destruct a0. step H. injection H as <-. plain_pres. Qed.
Lemma pres_told g s s' : (do s <- status_bar (emit g s); update_actions s) = Ok s' -> pres s s'.
Proof. intros H. step H. eapply pres_trans; [|eapply pres_update; exact H]. eapply pres_l; [..|eapply pres_status; exact E]; reflexivity. Qed.
Lemma selected_inv s m x : selected s = Ok (m, x) -> ml_sel s = Some m /\ model_of s m = Ok x.
Proof. unfold selected. destruct (ml_sel s); [|discriminate]. intros H. step H. injection H as <- <-. auto. Qed.
Lemma pres_first s s' : to_first_difference s = Ok s' -> pres s s'.
Proof.
  unfold to_first_difference, first_difference. intros H. step H. destruct a as [m x]. apply selected_inv in E as [_ E]. step H. step E0. injection E0 as <-. injection H as <-.
  eapply pres_r; [eapply pres_put; [exact E|apply kin_selection]|..]; reflexivity.
Qed.
Lemma pres_last s s' : to_last_difference s = Ok s' -> pres s s'.
Proof.
  unfold to_last_difference, last_difference. intros H. step H. destruct a as [m x]. apply selected_inv in E as [_ E]. step H. step E0. injection E0 as <-. injection H as <-.
  eapply pres_r; [eapply pres_put; [exact E|apply kin_selection]|..]; reflexivity.
Qed.
Lemma pres_first_model s s' : first_model s = Ok s' -> pres s s'.
Proof. unfold first_model. intros H. step H. destruct a; [discriminate|]. injection H as <-. plain_pres. Qed.
Lemma pres_last_model s s' : last_model s = Ok s' -> pres s s'.
Proof. unfold last_model. intros H. step H. destruct (rev a); [discriminate|]. injection H as <-. plain_pres. Qed.
Lemma pres_next_model s s' : next_model s = Ok s' -> pres s s'.
Proof. unfold next_model. intros H. step H. destruct (Z.ltb _ _); [step H|]; injection H as <-; plain_pres. Qed.
Lemma pres_prev_model s s' : prev_model s = Ok s' -> pres s s'.
Proof. unfold prev_model. intros H. destruct (Z.ltb _ _); [step H; destruct (Z.ltb _ _); [step H|]|]; injection H as <-; plain_pres. Qed.
Lemma pres_select s m d s' b : select_in s m d = Ok (s', b) -> pres s s'.
Proof.
  unfold select_in. intros H. step H. destruct d as [[m' k]|].
  - destruct (Nat.eqb m m'); [|injection H as <- <-; plain_pres]. destruct (set_selected_difference a (Some k)) as [x ok] eqn:S. injection H as <- <-.
    eapply pres_put; [exact E|]. unfold set_selected_difference in S. destruct (sel_eqb _ _); [injection S as <- _; apply kin_refl|]. destruct (find_id _ _); injection S as <- _; [apply kin_selection|apply kin_refl].
  - destruct (set_selected_difference a None) as [x ok] eqn:S. injection H as <- <-. eapply pres_put; [exact E|]. unfold set_selected_difference in S. destruct (sel_eqb _ _); injection S as <- _; apply kin_refl.
Qed.
Lemma pres_select_model s m s' b : set_selected_model s m = Ok (s', b) -> pres s s'.
Proof.
  unfold set_selected_model. intros H. destruct (sel_eqb _ _); [step H; injection H as <- _; now apply pres_update|]. step H. destruct (Z.ltb _ _); [injection H as <- _; plain_pres|]. step H. injection H as <- _.
  eapply pres_l; [..|eapply pres_update; exact E0]; reflexivity.
Qed.
Lemma pres_pair s m d s' : slot_selection_changed s m d = Ok s' -> pres s s'.
Proof.
  unfold slot_selection_changed. intros H. step H. destruct m as [m|]; [|discriminate]. step H. destruct a0 as [s1 b1]. apply pres_select in E0. step H. destruct a0 as [s2 b2]. apply pres_select_model in E1.
  step H. apply pres_told in H. eapply pres_l; [..|eapply pres_trans; [exact E0|eapply pres_trans; [exact E1|eapply pres_trans; [|exact H]]]]; try reflexivity. clear H.
  destruct b2.
  - destruct (ml_sel s2); [|discriminate]. step E2. destruct a1 as [s3 b3]. apply pres_select in E3. destruct b3; [injection E2 as <-; exact E3|]. eapply pres_trans; [exact E3|]. now apply pres_first.
  - step E2. eapply pres_trans; [eapply pres_first_model; exact E3|]. now apply pres_first.
Qed.
Lemma pres_single s d s' : slot_difference_changed s d = Ok s' -> pres s s'.
Proof.
  unfold slot_difference_changed. cbn [with_diff ml_sel]. intros H. destruct (ml_sel s); [|discriminate]. step H. destruct a as [s1 b1]. apply pres_select in E. step H. apply pres_told in H.
  eapply pres_l; [..|eapply pres_trans; [exact E|eapply pres_trans; [|exact H]]]; try reflexivity. destruct b1; [injection E0 as <-; apply pres_refl|now apply pres_first].
Qed.
Lemma pres_slot_previous_model s s' : slot_previous_model s = Ok s' -> pres s s'.
Proof.
  unfold slot_previous_model, announce. intros H. step H. apply pres_prev_model in E. step H. step H. apply pres_told in H. apply pres_first in E1.
  eapply pres_trans; [exact E|]. eapply pres_trans; [|eapply pres_trans; [exact E1|exact H]]. destruct (ml_sel a); [injection E0 as <-; apply pres_refl|now apply pres_first_model].
Qed.
Lemma pres_slot_next_model s s' : slot_next_model s = Ok s' -> pres s s'.
Proof.
  unfold slot_next_model, announce. intros H. step H. apply pres_next_model in E. step H. step H. apply pres_told in H. apply pres_first in E1.
  eapply pres_trans; [exact E|]. eapply pres_trans; [|eapply pres_trans; [exact E1|exact H]]. destruct (ml_sel a); [injection E0 as <-; apply pres_refl|now apply pres_last_model].
Qed.
Lemma pres_slot_previous s s' : slot_previous_difference s = Ok s' -> pres s s'.
Proof.
  unfold slot_previous_difference, announce, announce_difference. intros H. step H. destruct a as [m x]. apply selected_inv in E as [_ E]. step H. destruct a as [y k].
  assert (K : kin x y). { unfold prev_difference in E0. destruct (_ && _)%bool; [step E0|]; injection E0 as <- _; apply kin_selection. }
  apply (pres_trans _ _ _ (pres_put _ _ _ _ E K)). destruct k as [k|]; [eapply pres_l; [..|eapply pres_told; exact H]; reflexivity|]. step H. apply pres_prev_model in E1.
  eapply pres_l; [..|eapply pres_trans; [exact E1|]]; try reflexivity. destruct (ml_sel a).
  - step H. apply pres_told in H. eapply pres_trans; [eapply pres_last; exact E2|exact H].
  - step H. step H. apply pres_told in H. eapply pres_trans; [eapply pres_first_model; exact E2|]. eapply pres_trans; [eapply pres_first; exact E3|exact H].
Qed.
Lemma pres_slot_next s s' : slot_next_difference s = Ok s' -> pres s s'.
Proof.
  unfold slot_next_difference, announce, announce_difference. intros H. step H. destruct a as [m x]. apply selected_inv in E as [_ E]. step H. destruct a as [y k].
  assert (K : kin x y). { unfold next_difference in E0. destruct (Z.ltb _ _); [step E0|]; injection E0 as <- _; apply kin_selection. }
  apply (pres_trans _ _ _ (pres_put _ _ _ _ E K)). destruct k as [k|]; [eapply pres_l; [..|eapply pres_told; exact H]; reflexivity|]. step H. apply pres_next_model in E1.
  eapply pres_l; [..|eapply pres_trans; [exact E1|]]; try reflexivity. destruct (ml_sel a).
  - step H. apply pres_told in H. eapply pres_trans; [eapply pres_first; exact E2|exact H].
  - step H. step H. apply pres_told in H. eapply pres_trans; [eapply pres_last_model; exact E2|]. eapply pres_trans; [eapply pres_last; exact E3|exact H].
Qed.
Lemma pres_apply s b s' : slot_apply_difference s b = Ok s' -> pres s s'.
Proof.
  unfold slot_apply_difference. intros H. step H. destruct a as [m x]. apply selected_inv in E as [_ E]. step H. injection H as <-. eapply pres_r; [eapply pres_put; [exact E|eapply kin_apply; exact E0]|..]; reflexivity.
Qed.
Lemma pres_apply_all s b s' : slot_apply_all s b = Ok s' -> pres s s'.
Proof.
  unfold slot_apply_all. intros H. step H. destruct a as [m x]. apply selected_inv in E as [_ E]. step H. injection H as <-. eapply pres_r; [eapply pres_put; [exact E|eapply kin_apply_all; exact E0]|..]; reflexivity.
Qed.
Lemma pres_save e s m s' b : save_model e s m = Ok (s', b) -> pres s s'.
Proof.
  unfold save_model. intros H. step H. step H. injection H as <- _. eapply pres_r; [eapply pres_put; [exact E|eapply kin_save; exact E0]|..]; destruct (so_error _); reflexivity.
Qed.
Lemma pres_slot_save e s s' : slot_save e s = Ok s' -> pres s s'.
Proof.
  unfold slot_save. intros H. destruct (ml_sel s); [|injection H as <-; apply pres_refl]. step H. destruct a as [s1 b]. apply pres_save in E. injection H as <-.
  eapply pres_r; [exact E|..]; destruct (ml_has_save s1); reflexivity.
Qed.
Lemma pres_save_models envs : forall l k s s' b, save_models envs k s l = Ok (s', b) -> pres s s'.
Proof.
  induction l as [|m l IH]; intros k s s' b H; cbn [save_models] in H; [injection H as <- _; apply pres_refl|]. step H. destruct a as [s1 b1]. apply pres_save in E.
  destruct b1; [|injection H as <- _; exact E]. eapply pres_trans; [exact E|]. eapply IH. exact H.
Qed.
Lemma pres_run o s s' : run_lop s o = Ok s' -> pres s s'.
Proof.
  destruct o as [| | | |i k|k|b|b| | |b|e|envs|b]; cbn [run_lop]; intros H.
  - now apply pres_slot_next.
  - now apply pres_slot_previous.
  - now apply pres_slot_next_model.
  - now apply pres_slot_previous_model.
  - repeat step H. eapply pres_pair. exact H.
  - repeat step H. eapply pres_single. exact H.
  - eapply pres_apply. exact H.
  - eapply pres_apply_all. exact H.
  - unfold slot_action_apply in H. step H. step H. step H. apply pres_update in H. apply pres_slot_next in E1. eapply pres_trans; [|eapply pres_trans; [exact E1|exact H]].
    destruct (d_applied a); [injection E0 as <-; apply pres_refl|eapply pres_apply; exact E0].
  - unfold slot_action_unapply in H. step H. step H. step H. apply pres_update in H. apply pres_slot_previous in E1. eapply pres_trans; [|eapply pres_trans; [exact E1|exact H]].
    destruct (d_applied a); [eapply pres_apply; exact E0|injection E0 as <-; apply pres_refl].
  - unfold slot_action_apply_all in H. step H. apply pres_update in H. eapply pres_trans; [eapply pres_apply_all; exact E|exact H].
  - eapply pres_slot_save. exact H.
  - step H. destruct a as [s1 b]. injection H as <-. unfold save_all_models in E. destruct (Z.eqb _ _); [injection E as <- _; apply pres_refl|]. step E. eapply pres_save_models. exact E.
  - unfold set_read_write in H. destruct (Bool.eqb _ _); [injection H as <-; apply pres_refl|]. eapply pres_l; [..|eapply pres_update; exact H]; reflexivity.
Qed.
