(** C95: the selected model and the selected difference are there, or why not. *)
From Coq Require Import String Permutation.
From Verif Require PropsBlendSave PropsEdited.
From Verif Require Import Base QtStr Diff Save Parser SpecUnified SpecParse SpecPatch Blend SpecBlend SpecCalls LinesChanged Paths Info ModelList Life World Rounds LifeWorld Nested SpecList PHistory PSave PModelState PList PAnyInput PropsParse PropsRecreate Memory PropsUnified PropsEdit PropsCalls PropsMemory PKin PGood PFar PWorld PropsList PropsWorld PropsLife PropsLifeWorld PropsWorkflow PropsNested PropsNestedSafe PropsSound.
Local Open Scope Z_scope.

(** What selectedModel() gives has not been deleted. *)
Definition sel_ok (s : mlist) : Prop := forall m, ml_sel s = Some m -> alive s m.
(** Nor what selectedDifference() gives: its model is there, and it is one of the differences the model has (or had before an edit). *)
Definition diff_ok (s : mlist) : Prop := forall m k, ml_diff s = Some (m, k) -> exists x, model_of s m = Ok x /\ (k < length (dm_store x))%nat.
Definition held (s : mlist) : Prop := sel_ok s /\ diff_ok s.
(** Everything the proof carries along. *)
Definition fine (s : mlist) : Prop := all_good s /\ known s /\ held s.

(** Models live on and keep their differences. *)
Definition longer (s s' : mlist) : Prop := forall m x, model_of s m = Ok x -> exists y, model_of s' m = Ok y /\ (length (dm_store x) <= length (dm_store y))%nat.
Lemma longer_pres s s' : pres s s' -> longer s s'.
Proof. intros (_ & _ & P) m x X. destruct (P m x X) as (y & Y & [_ _ _ K]). exists y. split; [exact Y|]. apply PList.Forall2_len in K. lia. Qed.
Lemma longer_heap s s' : ml_heap s' = ml_heap s -> longer s s'.
Proof. intros E m x X. exists x. split; [|lia]. unfold model_of in *. now rewrite E. Qed.
Lemma longer_trans a b c : longer a b -> longer b c -> longer a c.
Proof. intros A B m x X. destruct (A m x X) as (y & Y & L). destruct (B m y Y) as (z & Z & L'). exists z. split; [exact Z|lia]. Qed.
Lemma longer_put s m x y : model_of s m = Ok x -> (length (dm_store x) <= length (dm_store y))%nat -> longer s (put_model s m y).
Proof.
  intros E L m' x' E'. destruct (Nat.eq_dec m m') as [<-|N].
  - rewrite E in E'. injection E' as <-. exists y. split; [eapply model_put; exact E|exact L].
  - exists x'. rewrite model_put_other by exact N. split; [exact E'|lia].
Qed.
Lemma sel_longer s s' : longer s s' -> ml_sel s' = ml_sel s -> sel_ok s -> sel_ok s'.
Proof. intros L E A m M. rewrite E in M. destruct (A m M) as [x X]. destruct (L m x X) as (y & Y & _). exists y. exact Y. Qed.
Lemma diff_longer s s' : longer s s' -> ml_diff s' = ml_diff s -> diff_ok s -> diff_ok s'.
Proof. intros L E A m k M. rewrite E in M. destruct (A m k M) as (x & X & K). destruct (L m x X) as (y & Y & Z). exists y. split; [exact Y|lia]. Qed.
Lemma held_longer s s' : longer s s' -> ml_sel s' = ml_sel s -> ml_diff s' = ml_diff s -> held s -> held s'.
Proof. intros L A B [C D]. split; [eapply sel_longer|eapply diff_longer]; eassumption. Qed.

(** * The parts *)
Lemma update_same s s' : update_actions s = Ok s' -> ml_heap s' = ml_heap s /\ ml_sel s' = ml_sel s /\ ml_diff s' = ml_diff s.
Proof.
  intros H. assert (W : exists a, s' = with_act s a) by (unfold update_actions in H; destruct (ml_models s), (ml_sel s), (ml_diff s); repeat step H; injection H as <-; eauto). destruct W as [a ->]. auto.
Qed.
Lemma status_same s s' : status_bar s = Ok s' -> ml_heap s' = ml_heap s /\ ml_sel s' = ml_sel s /\ ml_diff s' = ml_diff s.
Proof. unfold status_bar. intros H. step H. step H. destruct a0. step H. injection H as <-. auto. Qed.
Lemma held_same s s' : ml_heap s' = ml_heap s /\ ml_sel s' = ml_sel s /\ ml_diff s' = ml_diff s -> held s -> held s'.
Proof. intros (A & B & C). apply held_longer; auto. now apply longer_heap. Qed.
Lemma told_held g s s' : (do s <- status_bar (emit g s); update_actions s) = Ok s' -> held s -> held s'.
Proof. intros H G. step H. eapply held_same; [eapply update_same; exact H|]. eapply held_same; [eapply status_same; exact E|]. eapply held_same; [|exact G]. auto. Qed.
Lemma first_held s s' : to_first_difference s = Ok s' -> all_good s -> held s'.
Proof.
  unfold to_first_difference. intros H G. step H. destruct a as [m x]. apply selected_inv in E as [S E]. step H. destruct a as [y k]. injection H as <-. split.
  - intros m' M. cbn in M. rewrite S in M. injection M as <-. exists y. cbn. eapply model_put. exact E.
  - intros m' k' M. cbn in M. injection M as <- <-. exists y. split; [eapply model_put; exact E|]. unfold first_difference in E0. step E0. injection E0 as <- <-. pose proof (proj1 (G _ _ E)) as A. cbn. apply A.
    unfold diff_at in E1. destruct (Z.ltb _ _); [discriminate|]. destruct (nth_error (dm_diffs x) _) eqn:N; [|discriminate]. injection E1 as <-. eapply nth_error_In. exact N.
Qed.
Lemma last_held s s' : to_last_difference s = Ok s' -> all_good s -> held s'.
Proof.
  unfold to_last_difference. intros H G. step H. destruct a as [m x]. apply selected_inv in E as [S E]. step H. destruct a as [y k]. injection H as <-. split.
  - intros m' M. cbn in M. rewrite S in M. injection M as <-. exists y. cbn. eapply model_put. exact E.
  - intros m' k' M. cbn in M. injection M as <- <-. exists y. split; [eapply model_put; exact E|]. unfold last_difference in E0. step E0. injection E0 as <- <-. pose proof (proj1 (G _ _ E)) as A. cbn. apply A.
    unfold diff_at in E1. destruct (Z.ltb _ _); [discriminate|]. destruct (nth_error (dm_diffs x) _) eqn:N; [|discriminate]. injection E1 as <-. eapply nth_error_In. exact N.
Qed.
Lemma good_heap s s' : ml_heap s' = ml_heap s -> all_good s -> all_good s'. Proof. apply keeps_heap. Qed.
Lemma first_model_heap s s' : first_model s = Ok s' -> ml_heap s' = ml_heap s. Proof. unfold first_model. intros H. step H. destruct a; [discriminate|]. now injection H as <-. Qed.
Lemma last_model_heap s s' : last_model s = Ok s' -> ml_heap s' = ml_heap s. Proof. unfold last_model. intros H. step H. destruct (rev a); [discriminate|]. now injection H as <-. Qed.
Lemma next_model_heap s s' : next_model s = Ok s' -> ml_heap s' = ml_heap s. Proof. unfold next_model. intros H. step H. destruct (Z.ltb _ _); [step H|]; now injection H as <-. Qed.
Lemma prev_model_heap s s' : prev_model s = Ok s' -> ml_heap s' = ml_heap s. Proof. unfold prev_model. intros H. destruct (Z.ltb _ _); [step H; destruct (Z.ltb _ _); [step H|]|]; now injection H as <-. Qed.
Lemma select_parts s m d s' b : select_in s m d = Ok (s', b) -> all_good s -> longer s s' /\ all_good s' /\ ml_sel s' = ml_sel s /\ ml_diff s' = ml_diff s /\ alive s m /\
  (b = true -> forall m' k, d = Some (m', k) -> exists x, model_of s' m' = Ok x /\ (k < length (dm_store x))%nat).
Proof.
  intros H G. pose proof (longer_pres _ _ (pres_select _ _ _ _ _ H)) as L. pose proof (keeps_kin _ _ (mild_select _ _ _ _ _ H) (far_select _ _ _ _ _ H) G) as G'. split; [exact L|]. split; [exact G'|].
  unfold select_in in H. step H. rename a into x. destruct d as [[m' k]|].
  - destruct (Nat.eqb_spec m m') as [<-|N]; [|injection H as <- <-; split; [reflexivity|split; [reflexivity|split; [eexists; exact E|discriminate]]]].
    destruct (set_selected_difference x (Some k)) as [y ok] eqn:S. injection H as <- <-. split; [reflexivity|]. split; [reflexivity|]. split; [eexists; exact E|]. intros -> m2 k2 Q. injection Q as <- <-. exists y. split; [eapply model_put; exact E|].
    destruct (G _ _ E) as (A & _ & C & _ & _). unfold set_selected_difference in S. destruct (sel_eqb (Some k) (dm_sel x)) eqn:SE.
    + injection S as <-. apply C. destruct (dm_sel x) as [j|]; cbn in SE; [apply Nat.eqb_eq in SE; congruence|discriminate].
    + destruct (find_id k (dm_diffs x)) as [n|] eqn:F; [|discriminate]. injection S as <-. cbn. apply A. clear -F. revert n F. induction (dm_diffs x) as [|j l IH]; intros n F; [discriminate|]. cbn in F. destruct (Nat.eqb_spec k j) as [->|]; [now left|]. right. destruct (find_id k l); [eapply IH; reflexivity|discriminate].
  - destruct (set_selected_difference x None) as [y ok]. injection H as <- <-. split; [reflexivity|]. split; [reflexivity|]. split; [eexists; exact E|]. intros _ m' k Q. discriminate Q.
Qed.

Lemma first_model_sel s s' : first_model s = Ok s' -> known s -> sel_ok s'.
Proof.
  unfold first_model. intros H [_ K]. step H. destruct a as [|m l]; [discriminate|]. injection H as <-. intros m' M. cbn in M. injection M as <-. unfold the_list, listed in *. cbn in E. destruct (ml_models s); [|discriminate]. injection E as ->.
  inversion K as [|? ? A _]; subst. exact A.
Qed.
Lemma last_model_sel s s' : last_model s = Ok s' -> known s -> sel_ok s'.
Proof.
  unfold last_model. intros H [_ K]. step H. destruct (rev a) as [|m l] eqn:R; [discriminate|]. injection H as <-. intros m' M. cbn in M. injection M as <-. unfold the_list, listed in *. destruct (ml_models s); [|discriminate]. injection E as ->.
  rewrite Forall_forall in K. apply K. apply in_rev. rewrite R. now left.
Qed.
Lemma at_in l i m : model_at l i = Ok m -> In m l.
Proof. unfold model_at. destruct (Z.ltb _ _); [discriminate|]. destruct (nth_error l _) eqn:N; [|discriminate]. intros H. injection H as <-. eapply nth_error_In. exact N. Qed.
Lemma next_model_sel s s' : next_model s = Ok s' -> known s -> sel_ok s'.
Proof.
  unfold next_model. intros H [_ K]. step H. unfold the_list, listed in *. cbn in E. destruct (ml_models s); [|discriminate]. injection E as ->. rewrite Forall_forall in K.
  destruct (Z.ltb _ _); [step H|]; injection H as <-; intros m' M; cbn in M; [|discriminate]. injection M as <-. apply K. eapply at_in. exact E.
Qed.
Lemma prev_model_sel s s' : prev_model s = Ok s' -> known s -> sel_ok s'.
Proof.
  unfold prev_model. intros H [_ K]. destruct (Z.ltb _ _); [|injection H as <-; intros m' M; discriminate M]. step H. unfold the_list, listed in *. cbn in E. destruct (ml_models s); [|discriminate]. injection E as ->. rewrite Forall_forall in K.
  destruct (Z.ltb _ _); [step H|]; injection H as <-; intros m' M; cbn in M; [|discriminate]. injection M as <-. apply K. eapply at_in. exact E.
Qed.
Lemma next_model_diff s s' : next_model s = Ok s' -> ml_diff s' = ml_diff s. Proof. unfold next_model. intros H. step H. destruct (Z.ltb _ _); [step H|]; now injection H as <-. Qed.
Lemma prev_model_diff s s' : prev_model s = Ok s' -> ml_diff s' = ml_diff s. Proof. unfold prev_model. intros H. destruct (Z.ltb _ _); [step H; destruct (Z.ltb _ _); [step H|]|]; now injection H as <-. Qed.

(** * The slots *)
Lemma pair_held s m d s' : slot_selection_changed s m d = Ok s' -> fine s -> held s'.
Proof.
  unfold slot_selection_changed. intros H (G & K & SO & DO). step H. destruct m as [m|]; [|discriminate]. step H. destruct a0 as [s1 b1]. cbn [fst] in H.
  destruct (select_parts _ _ _ _ _ E0) as (L1 & G1 & S1 & D1 & A1 & _); [eapply good_heap; [reflexivity|exact G]|]. cbn in S1, D1. step H. destruct a0 as [s2 b2]. unfold set_selected_model in E1. rewrite S1 in E1. cbn [sel_eqb] in E1. rewrite Nat.eqb_refl in E1. step E1. injection E1 as <- <-.
  apply update_same in E2 as (H2 & S2 & D2). step H. eapply told_held; [exact H|]. clear H. rewrite S2, S1 in E1. step E1. destruct a2 as [s3 b3].
  destruct (select_parts _ _ _ _ _ E2) as (L3 & G3 & S3 & D3 & A3 & F3); [eapply good_heap; [exact H2|exact G1]|]. destruct b3; [|eapply first_held; [exact E1|exact G3]]. injection E1 as <-. split.
  - intros m' M. rewrite S3, S2, S1 in M. injection M as <-. destruct A3 as [x X]. destruct (L3 _ _ X) as (y & Y & _). exists y. exact Y.
  - intros m' k M. rewrite D3 in M. apply (F3 eq_refl). exact M.
Qed.
Lemma single_held s d s' : slot_difference_changed s d = Ok s' -> fine s -> held s'.
Proof.
  unfold slot_difference_changed. cbn [with_diff ml_sel]. intros H (G & K & SO & DO). destruct (ml_sel s) as [m|] eqn:S; [|discriminate]. step H. destruct a as [s1 b1].
  destruct (select_parts _ _ _ _ _ E) as (L1 & G1 & S1 & D1 & A1 & F1); [eapply good_heap; [reflexivity|exact G]|]. cbn in S1, D1. step H. eapply told_held; [exact H|]. destruct b1; [|eapply first_held; [exact E0|exact G1]]. injection E0 as <-. split.
  - intros m' M. rewrite S1, S in M. injection M as <-. destruct A1 as [x X]. destruct (L1 _ _ X) as (y & Y & _). exists y. exact Y.
  - intros m' k M. rewrite D1 in M. exact (F1 eq_refl _ _ M).
Qed.
Lemma previous_model_held s s' : slot_previous_model s = Ok s' -> fine s -> held s'.
Proof.
  unfold slot_previous_model, announce. intros H (G & K & SO & DO). step H. step H. step H. eapply told_held; [exact H|]. eapply first_held; [exact E1|]. apply good_heap with a; [|eapply good_heap; [eapply prev_model_heap; exact E|exact G]].
  destruct (ml_sel a); [now injection E0 as <-|eapply first_model_heap; exact E0].
Qed.
Lemma next_model_held s s' : slot_next_model s = Ok s' -> fine s -> held s'.
Proof.
  unfold slot_next_model, announce. intros H (G & K & SO & DO). step H. step H. step H. eapply told_held; [exact H|]. eapply first_held; [exact E1|]. apply good_heap with a; [|eapply good_heap; [eapply next_model_heap; exact E|exact G]].
  destruct (ml_sel a); [now injection E0 as <-|eapply last_model_heap; exact E0].
Qed.
Lemma prev_in x y k : prev_difference x = Ok (y, Some k) -> In k (dm_diffs x) /\ dm_store y = dm_store x.
Proof.
  unfold prev_difference. destruct (_ && _)%bool; [|discriminate]. intros H. step H. injection H as <- <-. split; [|reflexivity]. unfold diff_at in E. destruct (Z.ltb _ _); [discriminate|]. destruct (nth_error (dm_diffs x) _) eqn:N; [|discriminate]. injection E as <-. eapply nth_error_In. exact N.
Qed.
Lemma next_in x y k : next_difference x = Ok (y, Some k) -> In k (dm_diffs x) /\ dm_store y = dm_store x.
Proof.
  unfold next_difference. destruct (Z.ltb _ _); [|discriminate]. intros H. step H. injection H as <- <-. split; [|reflexivity]. unfold diff_at in E. destruct (Z.ltb _ _); [discriminate|]. destruct (nth_error (dm_diffs x) _) eqn:N; [|discriminate]. injection E as <-. eapply nth_error_In. exact N.
Qed.
Lemma previous_held s s' : slot_previous_difference s = Ok s' -> fine s -> held s'.
Proof.
  unfold slot_previous_difference, announce, announce_difference. intros H (G & K & SO & DO). step H. destruct a as [m x]. apply selected_inv in E as [S E]. step H. destruct a as [y k].
  assert (GP : all_good (put_model s m y)) by (eapply keeps_put; [exact E|eapply tame_prev; exact E0|exact G]). destruct k as [k|].
  - apply prev_in in E0 as [IN ST]. eapply told_held; [exact H|]. split.
    + intros m' M. cbn in M. rewrite S in M. injection M as <-. exists y. eapply model_put. exact E.
    + intros m' k' M. cbn in M. injection M as <- <-. exists y. split; [eapply model_put; exact E|]. rewrite ST. now apply (proj1 (G _ _ E)).
  - step H. assert (GA : all_good a) by (eapply good_heap; [eapply prev_model_heap; exact E1|exact GP]). destruct (ml_sel a).
    + step H. eapply told_held; [exact H|]. eapply last_held; [exact E2|exact GA].
    + step H. step H. eapply told_held; [exact H|]. eapply first_held; [exact E3|]. eapply good_heap; [eapply first_model_heap; exact E2|exact GA].
Qed.
Lemma next_held s s' : slot_next_difference s = Ok s' -> fine s -> held s'.
Proof.
  unfold slot_next_difference, announce, announce_difference. intros H (G & K & SO & DO). step H. destruct a as [m x]. apply selected_inv in E as [S E]. step H. destruct a as [y k].
  assert (GP : all_good (put_model s m y)) by (eapply keeps_put; [exact E|eapply tame_next; exact E0|exact G]). destruct k as [k|].
  - apply next_in in E0 as [IN ST]. eapply told_held; [exact H|]. split.
    + intros m' M. cbn in M. rewrite S in M. injection M as <-. exists y. eapply model_put. exact E.
    + intros m' k' M. cbn in M. injection M as <- <-. exists y. split; [eapply model_put; exact E|]. rewrite ST. now apply (proj1 (G _ _ E)).
  - step H. assert (GA : all_good a) by (eapply good_heap; [eapply next_model_heap; exact E1|exact GP]). destruct (ml_sel a).
    + step H. eapply told_held; [exact H|]. eapply first_held; [exact E2|exact GA].
    + step H. step H. eapply told_held; [exact H|]. eapply last_held; [exact E3|]. eapply good_heap; [eapply last_model_heap; exact E2|exact GA].
Qed.
Lemma held_pres s s' : pres s s' -> ml_sel s' = ml_sel s -> ml_diff s' = ml_diff s -> held s -> held s'. Proof. intros P. apply held_longer. now apply longer_pres. Qed.
Lemma apply_held s b s' : slot_apply_difference s b = Ok s' -> held s -> held s'.
Proof. intros H. apply held_pres; [eapply pres_apply; exact H|..]; unfold slot_apply_difference in H; step H; destruct a; step H; injection H as <-; reflexivity. Qed.
Lemma apply_all_held s b s' : slot_apply_all s b = Ok s' -> held s -> held s'.
Proof. intros H. apply held_pres; [eapply pres_apply_all; exact H|..]; unfold slot_apply_all in H; step H; destruct a; step H; injection H as <-; reflexivity. Qed.
Lemma save_same e s m s' b : save_model e s m = Ok (s', b) -> ml_sel s' = ml_sel s /\ ml_diff s' = ml_diff s.
Proof. unfold save_model. intros H. step H. step H. injection H as <- _. destruct (so_error _); auto. Qed.
Lemma save_held e s m s' b : save_model e s m = Ok (s', b) -> held s -> held s'.
Proof. intros H. destruct (save_same _ _ _ _ _ H). apply held_pres; auto. eapply pres_save. exact H. Qed.
Lemma save_models_held envs l : forall k s s' b, save_models envs k s l = Ok (s', b) -> held s -> held s'.
Proof.
  induction l as [|m l IH]; intros k s s' b H G; cbn [save_models] in H; [injection H as <- _; exact G|]. step H. destruct a as [s1 b1]. pose proof (save_held _ _ _ _ _ E G) as G1. destruct b1; [eapply IH; [exact H|exact G1]|]. injection H as <- _. exact G1.
Qed.
Lemma blend_model_held s m text s' : blend_model s m text = Ok s' -> all_good s -> held s'.
Proof.
  unfold blend_model. intros H G. step H. step H. step H. eapply first_held; [exact H|]. eapply good_heap; [eapply first_model_heap; exact E1|]. eapply keeps_put; [exact E|intros A; eapply blend_good; [exact E0|exact A]|exact G].
Qed.
Lemma blend_dir_held o url l : forall s b s' b', blend_dir o url s l b = Ok (s', b') -> all_good s -> held s -> held s'.
Proof.
  induction l as [|m l IH]; intros s b s' b' H G D; cbn [blend_dir] in H; [injection H as <- _; exact D|]. step H. step H. eapply IH; [exact H|eapply blend_model_sound; [exact E0|exact G]|eapply blend_model_held; [exact E0|exact G]].
Qed.
Lemma blend_original_held o s url s' b : blend_original o s url = Ok (s', b) -> all_good s -> held s -> held s'.
Proof.
  unfold blend_original. intros H G D. destruct (os_is_dir o url); [step H; eapply blend_dir_held; eassumption|]. destruct (os_is_file o url); [|injection H as <- _; exact D].
  step H. step H. step H. injection H as <- _. eapply blend_model_held; [exact E1|exact G].
Qed.
Lemma depth_held i l : forall s s', depth_and_applied i s l = Ok s' -> held s -> held s'.
Proof.
  induction l as [|m l IH]; intros s s' H D; cbn [depth_and_applied] in H; [injection H as <-; exact D|]. step H. step H. eapply IH; [exact H|]. apply (held_longer s); [|reflexivity|reflexivity|exact D]. eapply longer_put; [exact E|].
  apply PropsBlendSave.like_depth in E0. destruct E0 as [_ _ E3]. apply PList.Forall2_len in E3. lia.
Qed.
Lemma show_same s s' : show s = Ok s' -> ml_heap s' = ml_heap s /\ ml_sel s' = ml_sel s /\ ml_diff s' = ml_diff s.
Proof. unfold show. intros H. step H. injection H as <-. auto. Qed.
Lemma clear_same s : ml_heap (clear s) = ml_heap s /\ ml_sel (clear s) = ml_sel s /\ ml_diff (clear s) = ml_diff s. Proof. unfold clear. destruct (ml_models s); auto. Qed.
Lemma compare_mode_same s : ml_heap (compare_mode s) = ml_heap s /\ ml_sel (compare_mode s) = ml_sel s /\ ml_diff (compare_mode s) = ml_diff s. Proof. unfold compare_mode, clear. destruct (ml_models s); auto. Qed.

(** A diff that can be read gives a new selection; otherwise the selection stays, and that is good only if nothing was in the list. *)
Lemma parse_held o s diff s' b : (forall l, Permutation (os_sort o l) l) -> parse_diff_output o s diff = Ok (s', b) -> fine s -> (forall p, parse (os_sort o) (split_lines diff) = Ok p -> po_models p = None -> listed s = []) -> held s'.
Proof.
  intros HP H (G & K & D) L. unfold parse_diff_output in H. step H. step H. cbn [emit ml_models ml_heap] in *.
  destruct (po_models a) as [ms|] eqn:PM; cbn [with_models with_info ml_models] in H.
  - step H. step H. step H. injection H as <- _. apply (held_same a2); [auto|]. eapply first_held; [exact E2|]. eapply good_heap; [eapply first_model_heap; exact E1|].
    eapply heap_good; [exact HP|exact E|exact G|exact PM|]. destruct (po_malformed a); reflexivity.
  - injection H as <- <-. specialize (L a eq_refl PM). unfold listed in L. apply (held_longer s); [|reflexivity|reflexivity|exact D]. apply longer_heap. cbn. destruct (ml_models s) as [l|]; [|reflexivity]. subst l. reflexivity.
Qed.

Lemma clear_fine s : fine s -> fine (clear s) /\ listed (clear s) = [].
Proof.
  intros (G & [K1 K2] & D). assert (L : listed (clear s) = []) by (unfold listed, clear; destruct (ml_models s) eqn:M; cbn; [reflexivity|now rewrite M]). split; [|exact L]. split; [now apply clear_sound|]. split; [unfold known; rewrite L; split; constructor|].
  eapply held_same; [apply clear_same|exact D].
Qed.
Lemma fine_same s s' : ml_heap s' = ml_heap s -> ml_models s' = ml_models s -> ml_sel s' = ml_sel s -> ml_diff s' = ml_diff s -> fine s -> fine s'.
Proof.
  intros A B C D (G & [K1 K2] & H). split; [eapply good_heap; eassumption|]. split; [|eapply held_same; [|exact H]; auto]. unfold known, listed in *. rewrite B. split; [exact K1|]. eapply Forall_impl; [|exact K2]. intros m [x X]. exists x. unfold model_of in *. now rewrite A.
Qed.
Lemma open_held o s diff s' b : (forall l, Permutation (os_sort o l) l) -> parse_and_open o s diff = Ok (s', b) -> fine s -> held s'.
Proof.
  intros HP H F. unfold parse_and_open in H. step H. destruct a as [s1 ok]. destruct (clear_fine _ F) as [FC LC].
  assert (K : held s1) by (eapply parse_held; [exact HP|exact E|eapply fine_same; [..|exact FC]; reflexivity|intros p _ _; exact LC]).
  destruct ok; [|injection H as <- _; eapply held_same; [|exact K]; auto]. step H. step H. injection H as <- _. apply (held_same a0); [auto|]. eapply held_same; [eapply show_same; exact E1|]. eapply held_same; [eapply update_same; exact E0|exact K].
Qed.
Lemma open_blend_held o s s' b : (forall l, Permutation (os_sort o l) l) -> open_and_blend o s = Ok (s', b) -> fine s -> held s'.
Proof.
  intros HP H F. unfold open_and_blend in H. step H. step H. destruct a0 as [s1 ok]. destruct (clear_fine _ F) as [FC LC].
  assert (K : held s1) by (eapply parse_held; [exact HP|exact E0|exact FC|intros p _ _; exact LC]).
  assert (G : all_good s1) by (eapply parse_sound; [exact HP|exact E0|apply FC]).
  destruct ok; cbn [negb] in H; [|injection H as <- _; eapply held_same; [|exact K]; auto]. step H. step H. step H. step H. destruct a3 as [s2 ok].
  assert (K2 : held s2) by (eapply blend_original_held; [exact E4|eapply depth_sound; [exact E3|exact G]|eapply depth_held; [exact E3|exact K]]).
  destruct ok; cbn [negb] in H; [|injection H as <- _; eapply held_same; [|exact K2]; auto]. step H. step H. injection H as <- _. eapply held_same; [eapply show_same; exact E6|]. eapply held_same; [eapply update_same; exact E5|exact K2].
Qed.
Lemma compare_held o s s' b : (forall l, Permutation (os_sort o l) l) -> compare o s = Ok (s', b) -> fine s -> held s'.
Proof.
  intros HP H F. unfold compare in H. step H.
  assert (W : forall i, fine (with_info s (Some i))) by (intros i; eapply fine_same; [..|exact F]; reflexivity).
  assert (C : forall i s' b, Ok (compare_mode (with_info s (Some i)), true) = Ok (s', b) -> held s') by (intros i s0 b0 Q; injection Q as <- _; eapply held_same; [apply compare_mode_same|apply W]).
  assert (D : forall i s' b, open_and_blend o (with_info s (Some i)) = Ok (s', b) -> held s') by (intros i s0 b0 Q; eapply open_blend_held; [exact HP|exact Q|apply W]).
  destruct (_ && _)%bool; [eapply C; exact H|]. destruct (_ && _)%bool; [|destruct (_ && _)%bool; eapply D; exact H].
  destruct (_ && _)%bool; [eapply D; exact H|]. destruct (_ && _)%bool; [eapply D; exact H|eapply C; exact H].
Qed.
(** A happening that does not take the selection away: when the output of a process or of parseDiffOutput() cannot be read, the list is empty
    (as it is when it was not filled since the process was started). *)
Definition steady (o : outside) (s : mlist) (h : happening) : Prop :=
  match h with
  | HParseOutput diff | HFinished true _ diff _ => forall p, parse (os_sort o) (split_lines diff) = Ok p -> po_models p = None -> model_count s = 0
  | _ => True
  end.
Lemma count_listed s : model_count s = 0 -> listed s = [].
Proof. unfold model_count, listed. destruct (ml_models s) as [[|m l]|]; cbn; auto. lia. Qed.
Lemma finished_held o s success st out err s' : (forall l, Permutation (os_sort o l) l) -> slot_diff_process_finished o s success st out err = Ok s' -> steady o s (HFinished success st out err) -> fine s -> held s'.
Proof.
  intros HP H S F. unfold slot_diff_process_finished in H. destruct (negb (ml_process s)); [discriminate|]. step H. injection H as <-. apply (held_same a); [auto|]. destruct success.
  - step E. destruct a0 as [s1 ok]. assert (FE : fine (emit (Status Parsing) s)) by (eapply fine_same; [..|exact F]; reflexivity).
    assert (K : held s1) by (eapply parse_held; [exact HP|exact E0|exact FE|intros p P N; apply count_listed; exact (S p P N)]).
    assert (G : all_good s1) by (eapply parse_sound; [exact HP|exact E0|apply FE]). step E. injection E as <-. apply (held_same a0); [auto|].
    destruct ok; cbn [negb] in E1; [|injection E1 as <-; eapply held_same; [|exact K]; auto]. step E1. step E1. step E1.
    eapply held_same; [eapply show_same; exact E1|]. eapply held_same; [eapply update_same; exact E3|]. destruct (mode_eqb _ _); [injection E2 as <-; exact K|]. step E2. destruct a3. injection E2 as <-.
    eapply blend_original_held; [exact E4|exact G|exact K].
  - destruct st; injection E as <-; (eapply held_same; [|apply F]); auto.
Qed.
Lemma call_store q x c y : do_call q x c = Ok y -> (length (dm_store x) <= length (dm_store y))%nat.
Proof.
  assert (KN : forall z, kin x z -> (length (dm_store x) <= length (dm_store z))%nat) by (intros z [_ _ _ K]; apply PList.Forall2_len in K; lia).
  assert (ST : forall i, dm_store (fst (set_selected_difference x i)) = dm_store x) by (intros i; unfold set_selected_difference; destruct (sel_eqb _ _); [reflexivity|]; destruct i as [i|]; [destruct (find_id _ _)|]; reflexivity).
  destruct c; cbn [do_call]; intros H.
  - step H. injection H as <-. unfold first_difference in E. step E. injection E as <-. cbn. lia.
  - step H. injection H as <-. unfold last_difference in E. step E. injection E as <-. cbn. lia.
  - step H. injection H as <-. unfold next_difference in E. destruct (Z.ltb _ _); [step E|]; injection E as <-; cbn; lia.
  - step H. injection H as <-. unfold prev_difference in E. destruct (_ && _)%bool; [step E|]; injection E as <-; cbn; lia.
  - step H. injection H as <-. rewrite ST. lia.
  - injection H as <-. rewrite ST. lia.
  - apply KN. eapply kin_apply. exact H.
  - apply KN. eapply kin_apply_all. exact H.
  - step H. destruct a as [[m' ins] rem]. injection H as <-. cbn [fst]. destruct (PropsEdited.edit_store _ _ _ _ _ _ _ _ E) as [_ Hs]. destruct (le_lt_dec (length (dm_store x)) (length (dm_store m'))) as [L|L]; [exact L|]. exfalso.
    destruct (nth_error_Some_lt (dm_store x) (length (dm_store m'))) as (d & Hd); [exact L|]. destruct (Hs _ _ Hd) as (t & Ht). apply nth_some_lt in Ht. lia.
Qed.
Lemma calls_store q cs : forall x y, do_calls q x cs = Ok y -> (length (dm_store x) <= length (dm_store y))%nat.
Proof. induction cs as [|c cs IH]; intros x y H; cbn [do_calls] in H; [injection H as <-; lia|]. step H. apply call_store in E. apply IH in H. lia. Qed.

Lemma occur_held o s h s' : fair o s h -> steady o s h -> occur o s h = Ok s' -> fine s -> held s'.
Proof.
  intros [HP FH] SH H F. pose proof F as (G & K & D). destruct h; cbn [occur] in H.
  - eapply next_held; eassumption.
  - eapply previous_held; eassumption.
  - eapply next_model_held; eassumption.
  - eapply previous_model_held; eassumption.
  - eapply pair_held; eassumption.
  - eapply single_held; eassumption.
  - eapply apply_held; eassumption.
  - eapply apply_all_held; eassumption.
  - unfold slot_action_apply in H. step H. step H. step H. eapply held_same; [eapply update_same; exact H|]. eapply next_held; [exact E1|].
    destruct (d_applied a); [injection E0 as <-; exact F|]. split; [eapply keeps_kin; [eapply mild_apply; exact E0|eapply far_apply; exact E0|exact G]|]. split; [eapply far_known; [eapply far_apply; exact E0|exact K]|eapply apply_held; eassumption].
  - unfold slot_action_unapply in H. step H. step H. step H. eapply held_same; [eapply update_same; exact H|]. eapply previous_held; [exact E1|].
    destruct (d_applied a); [|injection E0 as <-; exact F]. split; [eapply keeps_kin; [eapply mild_apply; exact E0|eapply far_apply; exact E0|exact G]|]. split; [eapply far_known; [eapply far_apply; exact E0|exact K]|eapply apply_held; eassumption].
  - unfold slot_action_apply_all in H. step H. eapply held_same; [eapply update_same; exact H|]. eapply apply_all_held; eassumption.
  - unfold slot_save in H. destruct (ml_sel s); [|injection H as <-; exact D]. step H. destruct a as [s1 b]. injection H as <-. eapply held_same; [|eapply save_held; [exact E|exact D]]. destruct (ml_has_save s1); auto.
  - step H. destruct a as [s1 b]. injection H as <-. eapply save_held; eassumption.
  - step H. destruct a as [s1 b]. injection H as <-. unfold save_all_models in E. destruct (Z.eqb _ _); [injection E as <- _; exact D|]. step E. eapply save_models_held; eassumption.
  - unfold set_read_write in H. destruct (Bool.eqb _ _); [injection H as <-; exact D|]. eapply held_same; [eapply update_same; exact H|exact D].
  - injection H as <-. eapply held_same; [|exact D]. auto.
  - injection H as <-. eapply held_same; [apply clear_same|exact D].
  - eapply held_same; [eapply show_same; exact H|exact D].
  - step H. destruct a as [s1 b]. injection H as <-. eapply compare_held; eassumption.
  - unfold refresh in H. step H. injection H as <-. eapply held_same; [apply compare_mode_same|exact D].
  - unfold swap in H. step H. destruct (in_mode a); injection H as <-; first [eapply held_same; [apply compare_mode_same|exact D]|exact D].
  - step H. destruct a as [s1 b]. injection H as <-. unfold open_diff in E. destruct file; [injection E as <- _; exact D|]. eapply open_held; eassumption.
  - step H. destruct a as [s1 b]. injection H as <-. eapply open_held; eassumption.
  - step H. destruct a as [s1 b]. injection H as <-. eapply open_blend_held; eassumption.
  - step H. destruct a as [s1 b]. injection H as <-. eapply parse_held; [exact HP|exact E|exact F|]. intros p P N. apply count_listed. exact (SH p P N).
  - step H. destruct a as [s1 b]. injection H as <-. eapply blend_original_held; eassumption.
  - eapply finished_held; eassumption.
  - step H. injection H as <-. apply (held_longer s); [|reflexivity|reflexivity|exact D]. eapply longer_put; [exact E|]. destruct (FH _ eq_refl) as (q & cs & _ & C). eapply calls_store. exact C.
Qed.

(** * C95 *)
Fixpoint steady_life (s : mlist) (hs : list (outside * happening)) : Prop :=
  match hs with
  | [] => True
  | (o, h) :: hs' => steady o s h /\ forall s', occur o s h = Ok s' -> steady_life s' hs'
  end.
Lemma life_fine hs : forall s s', life s hs = Ok s' -> fair_life s hs -> steady_life s hs -> fine s -> fine s'.
Proof.
  induction hs as [|[o h] hs IH]; intros s s' H F S G; cbn [life fair_life steady_life] in *; [now injection H as <-|]. step H. destruct F as [F1 F2], S as [S1 S2]. eapply IH; [exact H|now apply F2|now apply S2|]. split; [|split].
  - eapply occur_sound; [exact F1|exact E|apply G].
  - eapply step_invariant; [exact E|apply G].
  - eapply occur_held; [exact F1|exact S1|exact E|exact G].
Qed.
(** At any time of any history in which no unreadable output arrives while models are shown: what selectedModel() and selectedDifference() give,
    if they are not null, has not been deleted. *)
Theorem C95_selection_lives_partial :
  forall support hs s, life (new_mlist support) hs = Ok s -> fair_life (new_mlist support) hs -> steady_life (new_mlist support) hs ->
  (forall m, ml_sel s = Some m -> exists x, model_of s m = Ok x) /\
  (forall m k, ml_diff s = Some (m, k) -> exists x d, model_of s m = Ok x /\ nth_error (dm_store x) k = Some d).
Proof.
  intros support hs s H F S. assert (G : fine (new_mlist support)) by (split; [apply new_good|split; [apply new_invariant|split; [intros m M; discriminate M|intros m k M; discriminate M]]]).
  destruct (life_fine _ _ _ H F S G) as (_ & _ & A & B). split; [exact A|]. intros m k M. destruct (B m k M) as (x & X & L). destruct (nth_error_Some_lt _ _ L) as [d D]. eauto.
Qed.
Print Assumptions C95_selection_lives_partial.
(** When unreadable output arrives while the selected model is shown, the model is deleted and stays selected. *)
Theorem C95_selection_lost :
  forall o s h s' m diff p, occur o s h = Ok s' -> (h = HParseOutput diff \/ exists st err, h = HFinished true st diff err) ->
  parse (os_sort o) (split_lines diff) = Ok p -> po_models p = None -> ml_sel s = Some m -> alive s m -> In m (listed s) ->
  ml_sel s' = Some m /\ ~ alive s' m.
Proof.
  intros o s h s' m diff p H HK P N M A I.
  assert (Q : forall s1 s2 b, ml_sel s1 = Some m -> parse_diff_output o s1 diff = Ok (s2, b) -> ml_sel s2 = Some m /\ b = false).
  { intros s1 s2 b M1 Q. unfold parse_diff_output in Q. rewrite P in Q. cbn [bind] in Q. step Q. rewrite N in Q. cbn [with_models with_info ml_models] in Q. injection Q as <- <-. split; [exact M1|reflexivity]. }
  assert (S : ml_sel s' = Some m).
  { destruct HK as [->|(st & err & ->)]; cbn [occur] in H.
    - step H. destruct a as [s1 b]. injection H as <-. eapply Q; eassumption.
    - unfold slot_diff_process_finished in H. destruct (negb (ml_process s)); [discriminate|]. step H. injection H as <-. step E. destruct a0 as [s1 b]. apply Q in E0 as [E1 ->]; [|exact M]. step E. injection E as <-. cbn [negb] in E0. injection E0 as <-. exact E1. }
  split; [exact S|]. apply (C85_what_is_freed _ _ _ _ _ H A). split; [exact I|]. destruct HK as [->|(st & err & ->)]; [left|right]; eauto.
Qed.
Print Assumptions C95_selection_lost.
(** Then whatever is done with the selected model is undefined. *)
Theorem C95_lost_is_used :
  forall o s h m, ml_sel s = Some m -> ~ alive s m ->
  match h with HNextDifference | HPreviousDifference | HApply _ | HApplyAll _ | HSelectDifference _ | HSaveSelected _ => exists why, occur o s h = UB why | _ => True end.
Proof.
  intros o s h m S N. assert (M : exists why, model_of s m = UB why) by (unfold alive, model_of in *; destruct (nth_error (ml_heap s) m) as [[x|]|]; [exfalso; eauto|eauto|eauto]). destruct M as [why M].
  assert (SE : selected s = UB why) by (unfold selected; rewrite S, M; reflexivity).
  destruct h; try exact I; cbn [occur]; exists why.
  - unfold slot_next_difference. now rewrite SE.
  - unfold slot_previous_difference. now rewrite SE.
  - unfold slot_difference_changed. cbn [with_diff ml_sel]. rewrite S. unfold select_in. change (model_of (with_diff s d) m) with (model_of s m). now rewrite M.
  - unfold slot_apply_difference. now rewrite SE.
  - unfold slot_apply_all. now rewrite SE.
  - unfold slot_save. rewrite S. unfold save_model. now rewrite M.
Qed.
Print Assumptions C95_lost_is_used.
(** That happens: diff is started, a diff file is opened before it ends, and diff ends with an error message only (exit code 2 counts as
    success). The next step to the next difference uses the deleted model. *)
Definition fails_late : list (outside * happening) := map (fun h => (here, h)) [HInfo two_urls; HRefresh; HParseAndOpen two_files; HFinished true NormalExit [] (lit "diff: /new: Permission denied")].
Theorem C95_selection_lives_refuted :
  exists s m, life (new_mlist true) fails_late = Ok s /\ fair_life (new_mlist true) fails_late /\ ml_sel s = Some m /\ ~ alive s m /\ (exists why, occur here s HNextDifference = UB why).
Proof.
  assert (G : forall r, match r with Ok s => match ml_sel s with Some m => match model_of s m with Ok _ => false | _ => true end | None => false end | _ => false end = true ->
     exists s m, r = Ok s /\ ml_sel s = Some m /\ ~ alive s m).
  { intros [s| |] K; try discriminate K. destruct (ml_sel s) as [m|] eqn:S; try discriminate K. exists s, m. split; [reflexivity|]. split; [exact S|]. intros [x X]. rewrite X in K. discriminate K. }
  destruct (G (life (new_mlist true) fails_late)) as (s & m & A & B & C); [vm_compute; reflexivity|]. exists s, m. split; [exact A|]. split; [|split; [exact B|split; [exact C|exact (C95_lost_is_used here s HNextDifference m B C)]]].
  apply fair_plain. repeat (constructor; [split; [intros l; apply Permutation_refl|exact I]|]). constructor.
Qed.
Print Assumptions C95_selection_lives_refuted.
(** The hypotheses of C95_selection_lives_partial hold of the history of C94_example, with its edit. *)
Lemma steady_plain hs : Forall (fun oh : outside * happening => match snd oh with HParseOutput _ | HFinished true _ _ _ => False | _ => True end) hs -> forall s, steady_life s hs.
Proof.
  induction 1 as [|[o h] hs N _ IH]; intros s; cbn [steady_life]; [exact I|]. split; [|intros s' _; apply IH]. cbn [snd] in N. destruct h; try exact I; [destruct N|]. destruct success; [destruct N|exact I].
Qed.
Example C95_example : exists s m x, life (new_mlist true) (before_edit ++ after_edit) = Ok s /\ steady_life (new_mlist true) (before_edit ++ after_edit) /\ ml_sel s = Some m /\ model_of s m = Ok x /\ ml_diff s <> None.
Proof.
  assert (G : forall r, match r with Ok s => match ml_sel s, ml_diff s with Some m, Some _ => match model_of s m with Ok _ => true | _ => false end | _, _ => false end | _ => false end = true ->
     exists s m x, r = Ok s /\ ml_sel s = Some m /\ model_of s m = Ok x /\ ml_diff s <> None).
  { intros [s| |] K; try discriminate K. destruct (ml_sel s) as [m|] eqn:S; try discriminate K. destruct (ml_diff s) eqn:D; try discriminate K. destruct (model_of s m) as [x| |] eqn:X; try discriminate K. exists s, m, x. split; [reflexivity|]. split; [exact S|]. split; [exact X|]. rewrite D. congruence. }
  destruct (G (life (new_mlist true) (before_edit ++ after_edit))) as (s & m & x & A & B & C & D); [vm_compute; reflexivity|]. exists s, m, x. split; [exact A|]. split; [|auto].
  split; [exact I|]. intros s1 _. split; [exact I|]. intros s2 _. split.
  - intros p P N. exfalso. assert (Q : match parse (os_sort here) (split_lines two_files) with Ok p => match po_models p with None => false | Some _ => true end | _ => true end = true) by (vm_compute; reflexivity). rewrite P, N in Q. discriminate Q.
  - intros s3 _. apply (steady_plain ((here, HActApply) :: after_edit)). unfold after_edit. repeat (constructor; [exact I|]). constructor.
Qed.
