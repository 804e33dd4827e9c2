(** C96: a polite history has no undefined behaviour. *)
From Coq Require Import String Permutation.
From Verif Require PropsBlendSave PropsEdited Jobs SpecJobs PropsJobs.
From Verif Require Import Base QtStr Diff Save Parser SpecUnified SpecParse SpecPatch SpecText Blend SpecBlend SpecCalls LinesChanged Paths Info ModelList Life World Rounds LifeWorld Nested SpecList PHistory PSave PModelState PList PListOpen PAnyInput PropsParse PropsRecreate Memory PropsUnified PropsEdit PropsCalls PropsMemory PKin PGood PFar PWorld PropsList PropsWorld PropsLife PropsLifeWorld PropsWorkflow PropsNested PropsNestedSafe PropsSound PropsHeld.
Local Open Scope Z_scope.

(** * What the list also keeps *)
(** When models are listed one is selected, and modelIndex is at least -1. *)
Definition anchored (s : mlist) : Prop := -1 <= ml_index s /\ (PropsLife.listed s <> [] -> ml_sel s <> None).
Definition same_anchor (s s' : mlist) : Prop := ml_index s' = ml_index s /\ ml_models s' = ml_models s /\ ml_sel s' = ml_sel s.
Lemma anchored_same s s' : same_anchor s s' -> anchored s -> anchored s'.
Proof. intros (I & M & S) [A B]. unfold anchored, PropsLife.listed in *. rewrite I, M, S. auto. Qed.
Lemma sa_refl s : same_anchor s s. Proof. repeat split. Qed.
Ltac sa := split; [reflexivity|split; reflexivity].
Lemma sa_trans a b c : same_anchor a b -> same_anchor b c -> same_anchor a c.
Proof. intros (A & B & C) (D & E & F). repeat split; congruence. Qed.
Lemma sa_update s s' : update_actions s = Ok s' -> same_anchor s s'.
Proof. intros H. assert (W : exists a, s' = with_act s a) by (unfold update_actions in H; destruct (ml_models s), (ml_sel s), (ml_diff s); repeat step H; injection H as <-; eauto). destruct W as [a ->]. sa. Qed.
Lemma sa_status s s' : status_bar s = Ok s' -> same_anchor s s'.
Proof. unfold status_bar. intros H. step H. step H. destruct a0. step H. injection H as <-. sa. Qed.
Lemma sa_told g s s' : (do s <- status_bar (emit g s); update_actions s) = Ok s' -> same_anchor s s'.
Proof. intros H. step H. eapply sa_trans; [|eapply sa_update; exact H]. apply sa_status in E. exact E. Qed.
Lemma sa_first s s' : to_first_difference s = Ok s' -> same_anchor s s'.
Proof. unfold to_first_difference. intros H. step H. destruct a. step H. destruct a. injection H as <-. sa. Qed.
Lemma sa_last s s' : to_last_difference s = Ok s' -> same_anchor s s'.
Proof. unfold to_last_difference. intros H. step H. destruct a. step H. destruct a. injection H as <-. sa. Qed.
Lemma sa_show s s' : show s = Ok s' -> same_anchor s s'.
Proof. unfold show. intros H. step H. injection H as <-. sa. Qed.
Lemma sa_apply s b s' : slot_apply_difference s b = Ok s' -> same_anchor s s'.
Proof. unfold slot_apply_difference. intros H. step H. destruct a. step H. injection H as <-. sa. Qed.
Lemma sa_apply_all s b s' : slot_apply_all s b = Ok s' -> same_anchor s s'.
Proof. unfold slot_apply_all. intros H. step H. destruct a. step H. injection H as <-. sa. Qed.
Lemma sa_save e s m s' b : save_model e s m = Ok (s', b) -> same_anchor s s'.
Proof. unfold save_model. intros H. step H. step H. injection H as <- _. destruct (so_error a0); sa. Qed.
Lemma sa_save_models envs l : forall k s s' b, save_models envs k s l = Ok (s', b) -> same_anchor s s'.
Proof.
  induction l as [|m l IH]; intros k s s' b H; cbn [save_models] in H; [injection H as <- _; sa|]. step H. destruct a as [s1 b1]. apply sa_save in E. destruct b1; [|injection H as <- _; exact E].
  eapply sa_trans; [exact E|eapply IH; exact H].
Qed.
Lemma sa_select s m d s' b : select_in s m d = Ok (s', b) -> same_anchor s s'.
Proof.
  unfold select_in. intros H. step H. destruct d as [[m' k]|]; [destruct (Nat.eqb _ _)|]; try (destruct (set_selected_difference _ _)); injection H as <- _; sa.
Qed.
Lemma sa_depth i l : forall s s', depth_and_applied i s l = Ok s' -> same_anchor s s'.
Proof. induction l as [|m l IH]; intros s s' H; cbn [depth_and_applied] in H; [injection H as <-; sa|]. step H. step H. apply IH in H. exact H. Qed.
Lemma first_anchored s s' : first_model s = Ok s' -> anchored s'.
Proof. unfold first_model. intros H. step H. destruct a; [discriminate|]. injection H as <-. split; cbn; [lia|discriminate]. Qed.
Lemma last_anchored s s' : last_model s = Ok s' -> anchored s'.
Proof.
  unfold last_model. intros H. step H. destruct (rev a) eqn:R; [discriminate|]. injection H as <-. split; cbn; [|discriminate]. lia.
Qed.
Lemma next_at s s' : next_model s = Ok s' -> -1 <= ml_index s -> -1 <= ml_index s'.
Proof. unfold next_model. intros H I. step H. destruct (Z.ltb _ _); [step H|]; injection H as <-; cbn; lia. Qed.
Lemma prev_at s s' : prev_model s = Ok s' -> -1 <= ml_index s -> -1 <= ml_index s'.
Proof. unfold prev_model. intros H I. destruct (Z.ltb_spec 0 (ml_index s)); [step H; destruct (Z.ltb _ _); [step H|]|]; injection H as <-; cbn; lia. Qed.
Lemma with_some s m : -1 <= ml_index s -> ml_sel s = Some m -> anchored s. Proof. intros A B. split; [exact A|]. now rewrite B. Qed.
Lemma index_low m l : -1 <= index_in m l. Proof. unfold index_in. destruct m; [destruct (find_id _ _)|]; lia. Qed.

Lemma pair_anchored s m d s' : slot_selection_changed s m d = Ok s' -> anchored s'.
Proof.
  unfold slot_selection_changed. intros H. step H. destruct m as [m|]; [|discriminate]. step H. destruct a0 as [s1 b1]. cbn [fst] in H. apply sa_select in E0 as SA.
  step H. destruct a0 as [s2 b2]. assert (S1 : ml_sel s1 = Some m) by (rewrite (proj2 (proj2 SA)); reflexivity). unfold set_selected_model in E1. rewrite S1 in E1. cbn [sel_eqb] in E1. rewrite Nat.eqb_refl in E1. step E1. injection E1 as <- <-. apply sa_update in E2.
  step H. apply sa_told in H. eapply anchored_same; [exact H|]. clear H. assert (A2 : anchored a0).
  { eapply anchored_same; [exact E2|]. eapply anchored_same; [exact SA|]. eapply with_some; [apply index_low|reflexivity]. }
  destruct (ml_sel a0) as [m0|]; [|discriminate]. step E1. destruct a2 as [s3 b3]. apply sa_select in E3. destruct b3; [injection E1 as <-|apply sa_first in E1; eapply anchored_same; [exact E1|]]; (eapply anchored_same; [exact E3|exact A2]).
Qed.
Lemma single_anchored s d s' : slot_difference_changed s d = Ok s' -> anchored s -> anchored s'.
Proof.
  unfold slot_difference_changed. cbn [with_diff ml_sel]. intros H A. destruct (ml_sel s) as [m|]; [|discriminate]. step H. destruct a as [s1 b1]. apply sa_select in E. step H. apply sa_told in H. eapply anchored_same; [exact H|].
  destruct b1; [injection E0 as <-|apply sa_first in E0; eapply anchored_same; [exact E0|]]; (eapply anchored_same; [exact E|exact A]).
Qed.
Lemma pair_model_anchored s s' (f : mlist -> res mlist) : (exists a b, (do s1 <- f s; (match ml_sel s1 with Some _ => Ok s1 | None => a s1 end)) = Ok b /\ same_anchor b s' /\ (forall x y, a x = Ok y -> anchored y)) -> (forall s1, f s = Ok s1 -> -1 <= ml_index s1) -> anchored s'.
Proof.
  intros (a & b & H & S & A) I. eapply anchored_same; [exact S|]. step H. destruct (ml_sel a0) as [m|] eqn:M; [injection H as <-; eapply with_some; [now apply I|exact M]|eapply A; exact H].
Qed.
Lemma next_model_anchored s s' : slot_next_model s = Ok s' -> anchored s -> anchored s'.
Proof.
  unfold slot_next_model, announce. intros H [A _]. step H. step H. step H. apply sa_told in H. apply sa_first in E1. apply (pair_model_anchored s s' next_model).
  - exists last_model, a0. split; [rewrite E; cbn [bind]; exact E0|]. split; [eapply sa_trans; eassumption|]. intros x y. apply last_anchored.
  - intros s1 E2. eapply next_at; eassumption.
Qed.
Lemma previous_model_anchored s s' : slot_previous_model s = Ok s' -> anchored s -> anchored s'.
Proof.
  unfold slot_previous_model, announce. intros H [A _]. step H. step H. step H. apply sa_told in H. apply sa_first in E1. apply (pair_model_anchored s s' prev_model).
  - exists first_model, a0. split; [rewrite E; cbn [bind]; exact E0|]. split; [eapply sa_trans; eassumption|]. intros x y. apply first_anchored.
  - intros s1 E2. eapply prev_at; eassumption.
Qed.
Lemma next_anchored s s' : slot_next_difference s = Ok s' -> anchored s -> anchored s'.
Proof.
  unfold slot_next_difference, announce, announce_difference. intros H A. step H. destruct a as [m x]. step H. destruct a as [y [k|]]; [apply sa_told in H; eapply anchored_same; [exact H|exact A]|].
  step H. assert (I : -1 <= ml_index a) by (eapply next_at; [exact E1|apply A]). destruct (ml_sel a) as [m'|] eqn:M.
  - step H. apply sa_told in H. apply sa_first in E2. eapply anchored_same; [exact H|]. eapply anchored_same; [exact E2|]. eapply with_some; eassumption.
  - step H. step H. apply sa_told in H. apply sa_last in E3. eapply anchored_same; [exact H|]. eapply anchored_same; [exact E3|]. eapply last_anchored. exact E2.
Qed.
Lemma previous_anchored s s' : slot_previous_difference s = Ok s' -> anchored s -> anchored s'.
Proof.
  unfold slot_previous_difference, announce, announce_difference. intros H A. step H. destruct a as [m x]. step H. destruct a as [y [k|]]; [apply sa_told in H; eapply anchored_same; [exact H|exact A]|].
  step H. assert (I : -1 <= ml_index a) by (eapply prev_at; [exact E1|apply A]). destruct (ml_sel a) as [m'|] eqn:M.
  - step H. apply sa_told in H. apply sa_last in E2. eapply anchored_same; [exact H|]. eapply anchored_same; [exact E2|]. eapply with_some; eassumption.
  - step H. step H. apply sa_told in H. apply sa_first in E3. eapply anchored_same; [exact H|]. eapply anchored_same; [exact E3|]. eapply first_anchored. exact E2.
Qed.
Lemma clear_anchored s : anchored s -> anchored (clear s).
Proof. intros [A B]. unfold clear, anchored, PropsLife.listed in *. destruct (ml_models s) eqn:M; cbn; rewrite ?M in *; (split; [exact A|]); [congruence|exact B]. Qed.
Lemma compare_mode_anchored s : anchored s -> anchored (compare_mode s).
Proof. intros A. exact (clear_anchored _ A). Qed.
Lemma parse_anchored o s diff s' b : parse_diff_output o s diff = Ok (s', b) -> anchored s -> anchored s'.
Proof.
  unfold parse_diff_output. intros H [A B]. step H. step H. destruct (po_models a) as [ms|]; cbn [with_info with_models ml_models] in H.
  - step H. step H. step H. injection H as <- _. apply first_anchored in E1. apply sa_first in E2. eapply anchored_same; [exact E2|exact E1].
  - injection H as <- _. split; [exact A|]. cbn. congruence.
Qed.
Lemma blend_model_anchored s m text s' : blend_model s m text = Ok s' -> anchored s'.
Proof. unfold blend_model. intros H. step H. step H. step H. apply sa_first in H. eapply anchored_same; [exact H|]. eapply first_anchored. exact E1. Qed.
Lemma blend_dir_anchored o url l : forall s b s' b', blend_dir o url s l b = Ok (s', b') -> anchored s -> anchored s'.
Proof. induction l as [|m l IH]; intros s b s' b' H A; cbn [blend_dir] in H; [now injection H as <- _|]. step H. step H. eapply IH; [exact H|]. eapply blend_model_anchored. exact E0. Qed.
Lemma blend_anchored o s url s' b : blend_original o s url = Ok (s', b) -> anchored s -> anchored s'.
Proof.
  unfold blend_original. intros H A. destruct (os_is_dir o url); [step H; eapply blend_dir_anchored; eassumption|]. destruct (os_is_file o url); [|now injection H as <- _].
  step H. step H. step H. injection H as <- _. eapply blend_model_anchored. exact E1.
Qed.
Lemma open_anchored o s diff s' b : parse_and_open o s diff = Ok (s', b) -> anchored s -> anchored s'.
Proof.
  unfold parse_and_open. intros H A. step H. destruct a as [s1 ok]. apply parse_anchored in E; [|exact (clear_anchored _ A)]. destruct ok; [|injection H as <- _; exact E]. step H. step H. injection H as <- _. apply (anchored_same a0); [sa|].
  eapply anchored_same; [eapply sa_show; exact E1|]. eapply anchored_same; [eapply sa_update; exact E0|exact E].
Qed.
Lemma open_blend_anchored o s s' b : open_and_blend o s = Ok (s', b) -> anchored s -> anchored s'.
Proof.
  unfold open_and_blend. intros H A. step H. step H. destruct a0 as [s1 ok]. apply parse_anchored in E0; [|exact (clear_anchored _ A)]. destruct ok; cbn [negb] in H; [|injection H as <- _; exact E0]. step H. step H. step H. step H. destruct a3 as [s2 ok].
  apply blend_anchored in E4; [|eapply anchored_same; [eapply sa_depth; exact E3|exact E0]]. destruct ok; cbn [negb] in H; [|injection H as <- _; exact E4]. step H. step H. injection H as <- _.
  eapply anchored_same; [eapply sa_show; exact E6|]. eapply anchored_same; [eapply sa_update; exact E5|exact E4].
Qed.
Lemma compare_anchored o s s' b : compare o s = Ok (s', b) -> anchored s -> anchored s'.
Proof.
  unfold compare. intros H A. step H.
  assert (C : forall i s' b, Ok (compare_mode (with_info s (Some i)), true) = Ok (s', b) -> anchored s') by (intros i s0 b0 Q; injection Q as <- _; apply compare_mode_anchored; exact A).
  assert (D : forall i s' b, open_and_blend o (with_info s (Some i)) = Ok (s', b) -> anchored s') by (intros i s0 b0 Q; eapply open_blend_anchored; [exact Q|exact A]).
  destruct (_ && _)%bool; [eapply C; exact H|]. destruct (_ && _)%bool; [|destruct (_ && _)%bool; eapply D; exact H].
  destruct (_ && _)%bool; [eapply D; exact H|]. destruct (_ && _)%bool; [eapply D; exact H|eapply C; exact H].
Qed.
Lemma finished_anchored o s success st out err s' : slot_diff_process_finished o s success st out err = Ok s' -> anchored s -> anchored s'.
Proof.
  intros H A. unfold slot_diff_process_finished in H. destruct (negb (ml_process s)); [discriminate|]. step H. injection H as <-. apply (anchored_same a); [sa|]. destruct success.
  - step E. destruct a0 as [s1 ok]. apply parse_anchored in E0; [|exact A]. step E. injection E as <-. apply (anchored_same a0); [sa|].
    destruct ok; cbn [negb] in E1; [|injection E1 as <-; exact E0]. step E1. step E1. step E1.
    eapply anchored_same; [eapply sa_show; exact E1|]. eapply anchored_same; [eapply sa_update; exact E3|]. destruct (mode_eqb _ _); [injection E2 as <-; exact E0|]. step E2. destruct a3. injection E2 as <-. eapply blend_anchored; [exact E4|exact E0].
  - destruct st; injection E as <-; exact A.
Qed.
Lemma occur_anchored o s h s' : occur o s h = Ok s' -> anchored s -> anchored s'.
Proof.
  intros H A. destruct h; cbn [occur] in H.
  - eapply next_anchored; eassumption.
  - eapply previous_anchored; eassumption.
  - eapply next_model_anchored; eassumption.
  - eapply previous_model_anchored; eassumption.
  - eapply pair_anchored; eassumption.
  - eapply single_anchored; eassumption.
  - eapply anchored_same; [eapply sa_apply; exact H|exact A].
  - eapply anchored_same; [eapply sa_apply_all; exact H|exact A].
  - unfold slot_action_apply in H. step H. step H. step H. eapply anchored_same; [eapply sa_update; exact H|]. eapply next_anchored; [exact E1|]. destruct (d_applied a); [injection E0 as <-; exact A|eapply anchored_same; [eapply sa_apply; exact E0|exact A]].
  - unfold slot_action_unapply in H. step H. step H. step H. eapply anchored_same; [eapply sa_update; exact H|]. eapply previous_anchored; [exact E1|]. destruct (d_applied a); [eapply anchored_same; [eapply sa_apply; exact E0|exact A]|injection E0 as <-; exact A].
  - unfold slot_action_apply_all in H. step H. eapply anchored_same; [eapply sa_update; exact H|]. eapply anchored_same; [eapply sa_apply_all; exact E|exact A].
  - unfold slot_save in H. destruct (ml_sel s) eqn:S; [|injection H as <-; exact A]. step H. destruct a as [s1 b]. injection H as <-. apply sa_save in E. eapply anchored_same; [|exact A]. destruct (ml_has_save s1); exact E.
  - step H. destruct a as [s1 b]. injection H as <-. eapply anchored_same; [eapply sa_save; exact E|exact A].
  - step H. destruct a as [s1 b]. injection H as <-. unfold save_all_models in E. destruct (Z.eqb _ _); [injection E as <- _; exact A|]. step E. eapply anchored_same; [eapply sa_save_models; exact E|exact A].
  - unfold set_read_write in H. destruct (Bool.eqb _ _); [injection H as <-; exact A|]. eapply anchored_same; [eapply sa_update; exact H|exact A].
  - injection H as <-. exact A.
  - injection H as <-. now apply clear_anchored.
  - eapply anchored_same; [eapply sa_show; exact H|exact A].
  - step H. destruct a as [s1 b]. injection H as <-. eapply compare_anchored; eassumption.
  - unfold refresh in H. step H. injection H as <-. now apply compare_mode_anchored.
  - unfold swap in H. step H. destruct (in_mode a); injection H as <-; first [apply compare_mode_anchored; exact A|exact A].
  - step H. destruct a as [s1 b]. injection H as <-. unfold open_diff in E. destruct file; [injection E as <- _; exact A|]. eapply open_anchored; eassumption.
  - step H. destruct a as [s1 b]. injection H as <-. eapply open_anchored; eassumption.
  - step H. destruct a as [s1 b]. injection H as <-. eapply open_blend_anchored; eassumption.
  - step H. destruct a as [s1 b]. injection H as <-. eapply parse_anchored; eassumption.
  - step H. destruct a as [s1 b]. injection H as <-. eapply blend_anchored; eassumption.
  - eapply finished_anchored; eassumption.
  - step H. injection H as <-. exact A.
Qed.

(** * What is needed *)
(** Reading the text is itself defined (C27: it is for every text that is readable in the sense of SpecJobs.v). *)
Definition parses (o : outside) (text : str) : Prop := exists p, parse (os_sort o) (split_lines text) = Ok p.
(** modelCount() is not 0, and every model of the list has differences. *)
Definition stocked (s : mlist) : Prop := PropsLife.listed s <> [] /\ forall m x, In m (PropsLife.listed s) -> model_of s m = Ok x -> dm_diffs x <> [].
(** There is a selected model, and it is as described. *)
Definition selected_has (s : mlist) (P : dmodel -> Prop) : Prop := exists m, ml_sel s = Some m /\ forall x, model_of s m = Ok x -> P x.
(** What a caller has to respect, by call. *)
Definition ready (o : outside) (s : mlist) (h : happening) : Prop :=
  match h with
  | HNextDifference | HPreviousDifference | HNextModel | HPreviousModel => stocked s
  | HSelect m d => ml_models s <> None /\ (exists m' x, m = Some m' /\ model_of s m' = Ok x /\ dm_diffs x <> []) /\
                   (forall m' k, d = Some (m', k) -> exists x, model_of s m' = Ok x /\ (k < length (dm_store x))%nat)
  | HSelectDifference d => ml_models s <> None /\ selected_has s (fun x => dm_diffs x <> [])
  | HApply _ => selected_has s (fun x => dm_sel x <> None)
  | HApplyAll _ | HActApplyAll _ => ml_sel s <> None
  | HActApply | HActUnapply => stocked s /\ ml_diff s <> None /\ selected_has s (fun x => dm_sel x <> None)
  | HSaveModel _ m | HModel m _ => alive s m
  | HSaveSelected _ | HSaveAll _ | HReadWrite _ | HInfo _ | HClear => True
  | HShow => ml_models s <> None
  | HCompare => exists i, ml_info s = Some i /\ (Jobs.runs_diff o i = true \/ parses o (os_read o (in_local_source i)) /\ parses o (os_read o (in_local_destination i)))
  | HRefresh | HSwap => ml_info s <> None
  | HOpenDiff file => file = [] \/ ml_info s <> None /\ parses o (os_read o file)
  | HParseAndOpen text | HParseOutput text => ml_info s <> None /\ parses o text
  | HOpenAndBlend => exists i, ml_info s = Some i /\ parses o (os_read o (in_local_destination i))
  | HBlendOriginal url => (os_is_dir o url || os_is_file o url)%bool = true -> stocked s
  | HFinished success _ text _ => ml_process s = true /\ (success = true -> ml_info s <> None /\ parses o text)
  end.

(** * Each step goes through *)
Lemma update_total s : all_good s -> held s -> exists s', update_actions s = Ok s'.
Proof.
  intros G [SO DO]. unfold update_actions. destruct (ml_models s) as [l|] eqn:M; [|eauto]. destruct (ml_sel s) as [m|] eqn:S; [|eauto]. destruct (ml_diff s) as [[m' k]|] eqn:D; [|eauto].
  destruct (SO m S) as [x X]. assert (SE : selected s = Ok (m, x)) by (unfold selected; rewrite S, X; reflexivity).
  match goal with |- exists s', bind ?w _ = Ok s' => assert (W : exists a, w = Ok a) end.
  { destruct (ml_has_save s); [|eauto]. destruct (ml_rw s); [|eauto]. rewrite SE. cbn [bind snd]. unfold difference_of. destruct (DO m' k D) as (y & Y & L). rewrite Y. cbn [bind]. destruct (deref_in_range _ _ L) as [d ->]. cbn [bind].
    unfold has_unsaved. destruct (deref_all_in_range (dm_store x) (dm_diffs x)) as [ds ->]; [apply good_sound; exact (G _ _ X)|]. cbn [bind]. eauto. }
  destruct W as [a ->]. cbn [bind]. unfold has_next_model, the_list. rewrite M. cbn [bind]. unfold has_prev_diff. rewrite SE. cbn [bind snd]. 
  destruct (Z.ltb 0 (dm_index x)); cbn [bind]; unfold has_next_diff; rewrite SE; cbn [bind snd]; (destruct (Z.ltb (dm_index x) _); cbn [bind]; [eauto|]; unfold has_next_model, the_list; rewrite M; cbn [bind]; eauto).
Qed.
Lemma told_total g s : all_good s -> held s -> ml_models s <> None -> ml_sel s <> None -> exists s', (do s <- status_bar (emit g s); update_actions s) = Ok s'.
Proof.
  intros G H L N. assert (W : exists s1, status_bar (emit g s) = Ok s1).
  { unfold status_bar, find_model, the_list, selected, difference_count. cbn [emit ml_models ml_sel ml_diff]. destruct (ml_models s) as [l|]; [|congruence]. cbn [bind]. destruct (ml_sel s) as [m|] eqn:S; [|congruence]. destruct (proj1 H m S) as [x X].
    change (model_of (emit g s) m) with (model_of s m). rewrite X. cbn [bind]. eauto. }
  destruct W as [s1 W]. rewrite W. cbn [bind]. pose proof (status_same _ _ W) as T. apply update_total; [eapply good_heap; [apply T|]; exact G|]. eapply held_same; [exact T|]. exact H.
Qed.
Lemma first_total s m x : ml_sel s = Some m -> model_of s m = Ok x -> dm_diffs x <> [] -> exists s', to_first_difference s = Ok s'.
Proof.
  intros S X N. unfold to_first_difference, selected. rewrite S, X. cbn [bind]. unfold first_difference. destruct (at_defined x 0) as (i & ->); [destruct (dm_diffs x); [congruence|cbn; lia]|]. cbn [bind]. eauto.
Qed.
Lemma last_total s m x : ml_sel s = Some m -> model_of s m = Ok x -> dm_diffs x <> [] -> exists s', to_last_difference s = Ok s'.
Proof.
  intros S X N. unfold to_last_difference, selected. rewrite S, X. cbn [bind]. unfold last_difference. destruct (at_defined x (Z.of_nat (length (dm_diffs x)) - 1)) as (i & ->); [destruct (dm_diffs x); [congruence|cbn [length]; lia]|]. cbn [bind]. eauto.
Qed.
Lemma listed_some s : PropsLife.listed s <> [] -> exists l, ml_models s = Some l /\ PropsLife.listed s = l /\ l <> [].
Proof. unfold PropsLife.listed. destruct (ml_models s) as [l|]; [eauto|congruence]. Qed.
(** Selected is a model of the list, which is stocked: the first or the last difference of the model is selected and told. *)
Lemma arrive s m (to : mlist -> res mlist) : (to = to_first_difference \/ to = to_last_difference) -> all_good s -> known s -> stocked s -> ml_sel s = Some m -> In m (PropsLife.listed s) ->
  exists s', (do s <- to s; announce s) = Ok s'.
Proof.
  intros T G K [NE ST] S IN. pose proof (proj2 K) as A. rewrite Forall_forall in A. destruct (A m IN) as [x X]. pose proof (ST m x IN X) as N. destruct (listed_some s NE) as (l & M & _).
  destruct T as [-> | ->].
  - destruct (first_total s m x S X N) as [s1 E]. rewrite E. cbn [bind]. apply told_total; [eapply keeps_kin; [eapply mild_first; exact E|eapply far_first; exact E|exact G]|eapply first_held; [exact E|exact G]| |].
    + destruct (pres_first _ _ E) as (_ & -> & _). congruence.
    + destruct (sa_first _ _ E) as (_ & _ & ->). congruence.
  - destruct (last_total s m x S X N) as [s1 E]. rewrite E. cbn [bind]. apply told_total; [eapply keeps_kin; [eapply mild_last; exact E|eapply far_last; exact E|exact G]|eapply last_held; [exact E|exact G]| |].
    + destruct (pres_last _ _ E) as (_ & -> & _). congruence.
    + destruct (sa_last _ _ E) as (_ & _ & ->). congruence.
Qed.
Lemma first_model_total s : PropsLife.listed s <> [] -> exists s' m, first_model s = Ok s' /\ ml_sel s' = Some m /\ In m (PropsLife.listed s).
Proof. intros NE. destruct (listed_some s NE) as (l & M & L & N). unfold first_model, the_list. cbn [with_index ml_models]. rewrite M. cbn [bind]. rewrite L. destruct l as [|m l]; [congruence|]. eexists _, m. split; [reflexivity|]. split; [reflexivity|now left]. Qed.
Lemma last_model_total s : PropsLife.listed s <> [] -> exists s' m, last_model s = Ok s' /\ ml_sel s' = Some m /\ In m (PropsLife.listed s).
Proof.
  intros NE. destruct (listed_some s NE) as (l & M & L & N). unfold last_model, the_list. rewrite M. cbn [bind]. rewrite L. destruct (rev l) as [|m r] eqn:R; [apply (f_equal (@rev nat)) in R; rewrite rev_involutive in R; cbn in R; congruence|]. eexists _, m. split; [reflexivity|]. split; [reflexivity|].
  apply in_rev. rewrite R. now left.
Qed.
Lemma next_model_total s : PropsLife.listed s <> [] -> -1 <= ml_index s -> exists s', next_model s = Ok s' /\ forall m, ml_sel s' = Some m -> In m (PropsLife.listed s).
Proof.
  intros NE I. destruct (listed_some s NE) as (l & M & L & N). unfold next_model, the_list. cbn [with_index ml_models ml_index]. rewrite M. cbn [bind]. rewrite L. destruct (Z.ltb_spec (ml_index s + 1) (Z.of_nat (length l))) as [B|B].
  - unfold model_at. destruct (Z.ltb_spec (ml_index s + 1) 0); [lia|]. destruct (nth_error l (Z.to_nat (ml_index s + 1))) as [m|] eqn:E; [|apply nth_error_None in E; lia]. cbn [bind]. eexists. split; [reflexivity|]. intros m' Q. injection Q as <-. eapply nth_error_In. exact E.
  - eexists. split; [reflexivity|]. intros m Q. discriminate Q.
Qed.
Lemma prev_model_total s : PropsLife.listed s <> [] -> exists s', prev_model s = Ok s' /\ forall m, ml_sel s' = Some m -> In m (PropsLife.listed s).
Proof.
  intros NE. destruct (listed_some s NE) as (l & M & L & N). unfold prev_model. destruct (Z.ltb_spec 0 (ml_index s)) as [P|P].
  - unfold the_list. cbn [with_index ml_models ml_index]. rewrite M. cbn [bind]. rewrite L. destruct (Z.ltb_spec (ml_index s - 1) (Z.of_nat (length l))) as [B|B].
    + unfold model_at. destruct (Z.ltb_spec (ml_index s - 1) 0); [lia|]. destruct (nth_error l (Z.to_nat (ml_index s - 1))) as [m|] eqn:E; [|apply nth_error_None in E; lia]. cbn [bind]. eexists. split; [reflexivity|]. intros m' Q. injection Q as <-. eapply nth_error_In. exact E.
    + eexists. split; [reflexivity|]. intros m Q. discriminate Q.
  - eexists. split; [reflexivity|]. intros m Q. discriminate Q.
Qed.
Definition stock_same (s s' : mlist) : ml_heap s' = ml_heap s -> ml_models s' = ml_models s -> stocked s -> stocked s'.
Proof. intros H M [A B]. unfold stocked, PropsLife.listed, model_of in *. rewrite M, H. auto. Qed.
Definition known_same (s s' : mlist) : ml_heap s' = ml_heap s -> ml_models s' = ml_models s -> known s -> known s'.
Proof. intros H M [A B]. unfold known, PropsLife.listed, alive, model_of in *. rewrite M, H. auto. Qed.
Lemma stock_pres s s' : pres s s' -> far s s' -> stocked s -> stocked s'.
Proof.
  intros (_ & M & P) F [A B]. unfold stocked, PropsLife.listed in *. rewrite M. split; [exact A|]. intros m y IN Y. destruct (proj2 (proj1 (proj2 (proj2 (proj2 (proj2 F)))) m)) as [x X]; [now exists y|].
  destruct (P m x X) as (y' & Y' & [_ _ D _]). rewrite Y in Y'. injection Y' as <-. rewrite D. eapply B; eassumption.
Qed.
Lemma base s s' : ml_heap s' = ml_heap s -> ml_models s' = ml_models s -> all_good s -> known s -> stocked s -> all_good s' /\ known s' /\ stocked s'.
Proof. intros H M G K S. split; [eapply good_heap; eassumption|]. split; [eapply known_same; eassumption|eapply stock_same; eassumption]. Qed.
Lemma next_model_models s s' : next_model s = Ok s' -> ml_models s' = ml_models s. Proof. intros H. apply (pres_next_model _ _ H). Qed.
Lemma moved_next s : all_good s -> known s -> stocked s -> -1 <= ml_index s -> exists s1, next_model s = Ok s1 /\ all_good s1 /\ known s1 /\ stocked s1 /\
  (forall m, ml_sel s1 = Some m -> In m (PropsLife.listed s1)) /\ exists s2 m, last_model s1 = Ok s2 /\ ml_sel s2 = Some m /\ In m (PropsLife.listed s2) /\ all_good s2 /\ known s2 /\ stocked s2.
Proof.
  intros G K S I. destruct (next_model_total s (proj1 S) I) as (s1 & E & IN). exists s1. split; [exact E|]. pose proof (next_model_heap _ _ E) as H1. pose proof (proj1 (proj2 (pres_next_model _ _ E))) as M1. destruct (base s s1 H1 M1 G K S) as (G1 & K1 & S1).
  split; [exact G1|]. split; [exact K1|]. split; [exact S1|]. split; [intros m Q; unfold PropsLife.listed in *; rewrite M1; now apply IN|].
  destruct (last_model_total s1 (proj1 S1)) as (s2 & m & E2 & Q & IN2). exists s2, m. pose proof (last_model_heap _ _ E2) as H2. pose proof (proj1 (proj2 (pres_last_model _ _ E2))) as M2. destruct (base s1 s2 H2 M2 G1 K1 S1) as (G2 & K2 & S2).
  split; [exact E2|]. split; [exact Q|]. split; [unfold PropsLife.listed in *; rewrite M2; exact IN2|auto].
Qed.
Lemma moved_prev s : all_good s -> known s -> stocked s -> exists s1, prev_model s = Ok s1 /\ all_good s1 /\ known s1 /\ stocked s1 /\
  (forall m, ml_sel s1 = Some m -> In m (PropsLife.listed s1)) /\ exists s2 m, first_model s1 = Ok s2 /\ ml_sel s2 = Some m /\ In m (PropsLife.listed s2) /\ all_good s2 /\ known s2 /\ stocked s2.
Proof.
  intros G K S. destruct (prev_model_total s (proj1 S)) as (s1 & E & IN). exists s1. split; [exact E|]. pose proof (prev_model_heap _ _ E) as H1. pose proof (proj1 (proj2 (pres_prev_model _ _ E))) as M1. destruct (base s s1 H1 M1 G K S) as (G1 & K1 & S1).
  split; [exact G1|]. split; [exact K1|]. split; [exact S1|]. split; [intros m Q; unfold PropsLife.listed in *; rewrite M1; now apply IN|].
  destruct (first_model_total s1 (proj1 S1)) as (s2 & m & E2 & Q & IN2). exists s2, m. pose proof (first_model_heap _ _ E2) as H2. pose proof (proj1 (proj2 (pres_first_model _ _ E2))) as M2. destruct (base s1 s2 H2 M2 G1 K1 S1) as (G2 & K2 & S2).
  split; [exact E2|]. split; [exact Q|]. split; [unfold PropsLife.listed in *; rewrite M2; exact IN2|auto].
Qed.
Lemma next_model_goes s : all_good s -> known s -> stocked s -> -1 <= ml_index s -> exists s', slot_next_model s = Ok s'.
Proof.
  intros G K S I. destruct (moved_next s G K S I) as (s1 & E & G1 & K1 & S1 & IN & s2 & m & E2 & Q & IN2 & G2 & K2 & S2). unfold slot_next_model. rewrite E. cbn [bind]. destruct (ml_sel s1) as [m1|] eqn:Q1; cbn [bind].
  - apply arrive with m1; auto.
  - rewrite E2. cbn [bind]. apply arrive with m; auto.
Qed.
Lemma previous_model_goes s : all_good s -> known s -> stocked s -> exists s', slot_previous_model s = Ok s'.
Proof.
  intros G K S. destruct (moved_prev s G K S) as (s1 & E & G1 & K1 & S1 & IN & s2 & m & E2 & Q & IN2 & G2 & K2 & S2). unfold slot_previous_model. rewrite E. cbn [bind]. destruct (ml_sel s1) as [m1|] eqn:Q1; cbn [bind].
  - apply arrive with m1; auto.
  - rewrite E2. cbn [bind]. apply arrive with m; auto.
Qed.
Lemma next_defined x : pointers_good x -> exists r, next_difference x = Ok r.
Proof. intros (_ & _ & _ & _ & I). unfold next_difference. destruct (Z.ltb_spec (dm_index x + 1) (Z.of_nat (length (dm_diffs x)))); [|eauto]. destruct (at_defined x (dm_index x + 1)) as (i & ->); [lia|]. cbn [bind]. eauto. Qed.
Lemma prev_defined x : pointers_good x -> exists r, prev_difference x = Ok r.
Proof. intros (_ & _ & _ & _ & I). unfold prev_difference. destruct (Z.ltb_spec 0 (dm_index x)), (Z.ltb_spec (dm_index x - 1) (Z.of_nat (length (dm_diffs x)))); cbn [andb]; eauto. destruct (at_defined x (dm_index x - 1)) as (i & ->); [lia|]. cbn [bind]. eauto. Qed.
Lemma next_kin x y k : next_difference x = Ok (y, k) -> kin x y.
Proof. unfold next_difference. intros H. destruct (Z.ltb _ _); [step H|]; injection H as <- _; apply kin_selection. Qed.
Lemma prev_kin x y k : prev_difference x = Ok (y, k) -> kin x y.
Proof. unfold prev_difference. intros H. destruct (_ && _)%bool; [step H|]; injection H as <- _; apply kin_selection. Qed.
(** The selected model after a move inside it. *)
Lemma put_base s m x y : model_of s m = Ok x -> kin x y -> tame x y -> all_good s -> known s -> stocked s -> all_good (put_model s m y) /\ known (put_model s m y) /\ stocked (put_model s m y).
Proof.
  intros X KN T G K S. split; [eapply keeps_put; [exact X|exact T|exact G]|]. split; [eapply far_known; [eapply far_put; eassumption|exact K]|]. eapply stock_pres; [eapply pres_put; eassumption|eapply far_put; eassumption|exact S].
Qed.
Lemma next_goes s : fine s -> stocked s -> anchored s -> exists s', slot_next_difference s = Ok s'.
Proof.
  intros (G & K & H) S [I A]. destruct (ml_sel s) as [m|] eqn:Q; [|now specialize (A (proj1 S))]. destruct (proj1 H m Q) as [x X]. unfold slot_next_difference, selected. rewrite Q, X. cbn [bind].
  destruct (next_defined x (G _ _ X)) as [[y k] E]. rewrite E. cbn [bind]. destruct (put_base s m x y X (next_kin _ _ _ E) (tame_next _ _ _ E) G K S) as (G1 & K1 & S1). destruct k as [k|].
  - destruct (next_in _ _ _ E) as [IN ST]. destruct (listed_some s (proj1 S)) as (l & M & _). unfold announce_difference. apply told_total; [exact G1| |cbn; congruence|cbn; congruence]. split.
    + intros m' M'. cbn in M'. rewrite Q in M'. injection M' as <-. exists y. eapply model_put. exact X.
    + intros m' k' M'. cbn in M'. injection M' as <- <-. exists y. split; [eapply model_put; exact X|]. rewrite ST. exact (proj1 (G _ _ X) k IN).
  - destruct (moved_next (with_diff (put_model s m y) None) G1 K1 S1 I) as (s1 & E1 & G2 & K2 & S2 & IN & s2 & m2 & E2 & Q2 & IN2 & G3 & K3 & S3). rewrite E1. cbn [bind]. destruct (ml_sel s1) as [m1|] eqn:Q1.
    + apply arrive with m1; auto.
    + rewrite E2. cbn [bind]. apply arrive with m2; auto.
Qed.
Lemma previous_goes s : fine s -> stocked s -> anchored s -> exists s', slot_previous_difference s = Ok s'.
Proof.
  intros (G & K & H) S [I A]. destruct (ml_sel s) as [m|] eqn:Q; [|now specialize (A (proj1 S))]. destruct (proj1 H m Q) as [x X]. unfold slot_previous_difference, selected. rewrite Q, X. cbn [bind].
  destruct (prev_defined x (G _ _ X)) as [[y k] E]. rewrite E. cbn [bind]. destruct (put_base s m x y X (prev_kin _ _ _ E) (tame_prev _ _ _ E) G K S) as (G1 & K1 & S1). destruct k as [k|].
  - destruct (prev_in _ _ _ E) as [IN ST]. destruct (listed_some s (proj1 S)) as (l & M & _). unfold announce_difference. apply told_total; [exact G1| |cbn; congruence|cbn; congruence]. split.
    + intros m' M'. cbn in M'. rewrite Q in M'. injection M' as <-. exists y. eapply model_put. exact X.
    + intros m' k' M'. cbn in M'. injection M' as <- <-. exists y. split; [eapply model_put; exact X|]. rewrite ST. exact (proj1 (G _ _ X) k IN).
  - destruct (moved_prev (with_diff (put_model s m y) None) G1 K1 S1) as (s1 & E1 & G2 & K2 & S2 & IN & s2 & m2 & E2 & Q2 & IN2 & G3 & K3 & S3). rewrite E1. cbn [bind]. destruct (ml_sel s1) as [m1|] eqn:Q1.
    + apply arrive with m1; auto.
    + rewrite E2. cbn [bind]. apply arrive with m2; auto.
Qed.
Lemma select_total s m d x : model_of s m = Ok x -> exists r, select_in s m d = Ok r.
Proof. intros X. unfold select_in. rewrite X. cbn [bind]. destruct d as [[m' k]|]; [destruct (Nat.eqb m m'); [|eauto]|]; destruct (set_selected_difference _ _); eauto. Qed.
Lemma pair_goes s m x d : fine s -> ml_models s <> None -> model_of s m = Ok x -> dm_diffs x <> [] -> (forall m' k, d = Some (m', k) -> exists x, model_of s m' = Ok x /\ (k < length (dm_store x))%nat) ->
  exists s', slot_selection_changed s (Some m) d = Ok s'.
Proof.
  intros (G & K & H) ML X ND DA. unfold slot_selection_changed, the_list. cbn [with_sel ml_models]. destruct (ml_models s) as [l|] eqn:M; [|congruence]. cbn [bind]. set (s0 := with_diff (with_index (with_sel s (Some m)) (index_in (Some m) l)) d).
  assert (X0 : model_of s0 m = Ok x) by exact X. assert (G0 : all_good s0) by exact G. destruct (select_total s0 m d x X0) as [[s1 b1] E1]. rewrite E1. cbn [bind fst].
  destruct (select_parts _ _ _ _ _ E1 G0) as (L1 & G1 & S1 & D1 & _ & _). cbn in S1, D1.
  assert (H1 : held s1).
  { split.
    - intros m' Q. rewrite S1 in Q. injection Q as <-. destruct (L1 m x X0) as (y & Y & _). now exists y.
    - intros m' k Q. rewrite D1 in Q. destruct (DA m' k Q) as (z & Z & B). destruct (L1 m' z Z) as (y & Y & LY). exists y. split; [exact Y|lia]. }
  unfold set_selected_model. rewrite S1. cbn [sel_eqb]. rewrite Nat.eqb_refl. destruct (update_total s1 G1 H1) as [s2 E2]. rewrite E2. cbn [bind]. pose proof (update_same _ _ E2) as T2. rewrite (proj1 (proj2 T2)), S1.
  assert (P1 : pres s0 s2) by (eapply pres_trans; [eapply pres_select; exact E1|eapply pres_update; exact E2]).
  destruct P1 as (I2 & M2 & P2). destruct (P2 m x X0) as (x2 & X2 & [_ _ DD _]). assert (G2 : all_good s2) by (eapply good_heap; [apply T2|exact G1]). destruct (select_total s2 m (ml_diff s2) x2 X2) as [[s3 b3] E3]. rewrite E3. cbn [bind].
  destruct (select_parts _ _ _ _ _ E3 G2) as (L3 & G3 & S3 & D3 & _ & F3). rewrite (proj1 (proj2 T2)), S1 in S3. pose proof (pres_select _ _ _ _ _ E3) as (I3 & M3 & P3). destruct (P3 m x2 X2) as (x3 & X3 & [_ _ DD3 _]).
  assert (N3 : ml_models s3 <> None) by (rewrite M3, M2; cbn; congruence). destruct b3; cbn [bind].
  - apply told_total; [exact G3| |exact N3|congruence]. split.
    + intros m' Q. rewrite S3 in Q. injection Q as <-. now exists x3.
    + intros m' k Q. rewrite D3 in Q. exact (F3 eq_refl _ _ Q).
  - destruct (first_total s3 m x3 S3 X3) as [s4 E4]; [congruence|]. rewrite E4. cbn [bind]. apply told_total; [eapply keeps_kin; [eapply mild_first; exact E4|eapply far_first; exact E4|exact G3]|eapply first_held; eassumption| |].
    + destruct (pres_first _ _ E4) as (_ & -> & _). exact N3.
    + destruct (sa_first _ _ E4) as (_ & _ & ->). congruence.
Qed.
Lemma single_goes s d : fine s -> ml_models s <> None -> selected_has s (fun x => dm_diffs x <> []) -> exists s', slot_difference_changed s d = Ok s'.
Proof.
  intros (G & K & H) ML (m & S & SH). destruct (proj1 H m S) as [x X]. specialize (SH x X). unfold slot_difference_changed. cbn [with_diff ml_sel]. rewrite S. set (s0 := with_diff s d). assert (X0 : model_of s0 m = Ok x) by exact X. assert (G0 : all_good s0) by exact G.
  destruct (select_total s0 m d x X0) as [[s1 b1] E1]. rewrite E1. cbn [bind]. destruct (select_parts _ _ _ _ _ E1 G0) as (L1 & G1 & S1 & D1 & _ & F1). cbn in S1, D1. rewrite S in S1.
  pose proof (pres_select _ _ _ _ _ E1) as (I1 & M1 & P1). destruct (P1 m x X0) as (x1 & X1 & [_ _ DD _]). assert (N1 : ml_models s1 <> None) by (rewrite M1; exact ML). destruct b1; cbn [bind].
  - apply told_total; [exact G1| |exact N1|congruence]. split.
    + intros m' Q. rewrite S1 in Q. injection Q as <-. now exists x1.
    + intros m' k Q. rewrite D1 in Q. exact (F1 eq_refl _ _ Q).
  - destruct (first_total s1 m x1 S1 X1) as [s2 E2]; [congruence|]. rewrite E2. cbn [bind]. apply told_total; [eapply keeps_kin; [eapply mild_first; exact E2|eapply far_first; exact E2|exact G1]|eapply first_held; eassumption| |].
    + destruct (pres_first _ _ E2) as (_ & -> & _). exact N1.
    + destruct (sa_first _ _ E2) as (_ & _ & ->). congruence.
Qed.
Lemma apply_goes s b : fine s -> selected_has s (fun x => dm_sel x <> None) -> exists s', slot_apply_difference s b = Ok s'.
Proof.
  intros (G & K & H) (m & S & SH). destruct (proj1 H m S) as [x X]. unfold slot_apply_difference, selected. rewrite S, X. cbn [bind]. destruct (one_call (fun _ => 0%N) x (ApplyOne b) (G _ _ X) (SH x X)) as (y & Y & _). cbn [do_call] in Y. rewrite Y. cbn [bind]. eauto.
Qed.
Lemma apply_all_goes s b : fine s -> ml_sel s <> None -> exists s', slot_apply_all s b = Ok s'.
Proof.
  intros (G & K & H) N. destruct (ml_sel s) as [m|] eqn:S; [|congruence]. destruct (proj1 H m S) as [x X]. unfold slot_apply_all, selected. rewrite S, X. cbn [bind]. destruct (one_call (fun _ => 0%N) x (ApplyEach b) (G _ _ X) Logic.I) as (y & Y & _). cbn [do_call] in Y. rewrite Y. cbn [bind]. eauto.
Qed.
Lemma apply_fine s b s' : slot_apply_difference s b = Ok s' -> fine s -> fine s'.
Proof. intros E (G & K & H). split; [eapply keeps_kin; [eapply mild_apply; exact E|eapply far_apply; exact E|exact G]|]. split; [eapply far_known; [eapply far_apply; exact E|exact K]|eapply apply_held; eassumption]. Qed.
Lemma move_fine (f : mlist -> res mlist) s s' : f s = Ok s' -> mild s s' -> far s s' -> held s' -> fine s -> fine s'.
Proof. intros E M F H (G & K & _). split; [eapply keeps_kin; eassumption|]. split; [eapply far_known; eassumption|exact H]. Qed.
Lemma action_goes s (b : bool) : fine s -> stocked s -> anchored s -> ml_diff s <> None -> selected_has s (fun x => dm_sel x <> None) -> exists s', (if b then slot_action_apply s else slot_action_unapply s) = Ok s'.
Proof.
  intros F S A DN SH. pose proof F as (G & K & H). destruct (ml_diff s) as [[m k]|] eqn:D; [|congruence]. destruct (proj2 H m k D) as (x & X & L). destruct (deref_in_range _ _ L) as [d Dd].
  assert (DO : difference_of s (ml_diff s) = Ok d) by (unfold difference_of; rewrite D, X; cbn [bind]; exact Dd).
  assert (W : exists s1, (if b then if d_applied d then Ok s else slot_apply_difference s true else if d_applied d then slot_apply_difference s false else Ok s) = Ok s1 /\ fine s1 /\ stocked s1 /\ anchored s1).
  { assert (Q : forall c, exists s1, slot_apply_difference s c = Ok s1 /\ fine s1 /\ stocked s1 /\ anchored s1).
    { intros c. destruct (apply_goes s c F SH) as [s1 E]. exists s1. split; [exact E|]. split; [eapply apply_fine; eassumption|]. split; [eapply stock_pres; [eapply pres_apply; exact E|eapply far_apply; exact E|exact S]|eapply anchored_same; [eapply sa_apply; exact E|exact A]]. }
    destruct b, (d_applied d); eauto. }
  destruct W as (s1 & E1 & F1 & S1 & A1). destruct b; unfold slot_action_apply, slot_action_unapply; rewrite DO; cbn [bind]; rewrite E1; cbn [bind].
  - destruct (next_goes s1 F1 S1 A1) as [s2 E2]. rewrite E2. cbn [bind]. destruct (move_fine _ _ _ E2 (mild_slot_next _ _ E2) (far_slot_next _ _ E2) (next_held _ _ E2 F1) F1) as (G2 & K2 & H2). now apply update_total.
  - destruct (previous_goes s1 F1 S1 A1) as [s2 E2]. rewrite E2. cbn [bind]. destruct (move_fine _ _ _ E2 (mild_slot_previous _ _ E2) (far_slot_previous _ _ E2) (previous_held _ _ E2 F1) F1) as (G2 & K2 & H2). now apply update_total.
Qed.
Lemma save_goes e s m : all_good s -> alive s m -> exists r, save_model e s m = Ok r.
Proof. intros G [x X]. unfold save_model. rewrite X. cbn [bind]. destruct (save_total e x (G _ _ X)) as [o ->]. cbn [bind]. eauto. Qed.

(** * Opening *)
Lemma blend_hunks_total hs : forall st src dst lines, Forall (in_range (length st)) hs -> exists r, blend_hunks st src dst lines hs = Ok r.
Proof.
  induction hs as [|h hs IH]; intros st src dst lines F; cbn [blend_hunks]; [eauto|]. inversion F as [|? ? A B]; subst.
  destruct (Z.ltb src (h_src h)).
  - destruct (blend_while (h_src h) src dst lines (new_diff src dst Unchanged)) as [[[src' dst'] lines'] d].
    assert (L : (length st <= length (st ++ [d]))%nat) by (rewrite app_length; lia). destruct (deref_all_in_range (st ++ [d]) (h_diffs h)) as [ds ->]; [exact (in_range_more _ _ _ L A)|]. cbn [bind].
    match goal with |- context [blend_hunks ?a ?b ?c ?e hs] => destruct (IH a b c e) as [[[[[? ?] ?] ?] ?] ->] end; [eapply Forall_impl; [|exact B]; intros z; apply in_range_more; exact L|]. cbn [bind]. eauto.
  - destruct (deref_all_in_range st (h_diffs h)) as [ds ->]; [exact A|]. cbn [bind].
    match goal with |- context [blend_hunks ?a ?b ?c ?e hs] => destruct (IH a b c e) as [[[[[? ?] ?] ?] ?] ->] end; [exact B|]. cbn [bind]. eauto.
Qed.
Lemma blend_total x text : pointers_good x -> exists y, blend_file x text = Ok y.
Proof.
  intros G. destruct (good_sound _ G) as [_ S]. unfold blend_file. destruct (blend_hunks_total (dm_hunks x) (dm_store x) 1 1 (split_lines text)) as [[[[[hs st] src] dst] lines] E]; [exact S|].
  change (dm_store (with_blended x true)) with (dm_store x). change (dm_hunks (with_blended x true)) with (dm_hunks x). rewrite E. cbn [bind]. destruct lines; [eauto|]. destruct (alloc_diff _ _). eauto.
Qed.
Lemma blend_listed x text y : blend_file x text = Ok y -> dm_diffs y = dm_diffs x.
Proof.
  unfold blend_file. intros H. step H. destruct a as [[[[hs st] src] dst] lines]. destruct lines; [now injection H as <-|]. unfold alloc_diff in H. injection H as <-. reflexivity.
Qed.
Lemma blend_model_goes s m text : all_good s -> known s -> stocked s -> alive s m -> exists s', blend_model s m text = Ok s' /\ all_good s' /\ known s' /\ stocked s' /\ ml_models s' = ml_models s.
Proof.
  intros G K S [x X]. unfold blend_model. rewrite X. cbn [bind]. destruct (blend_total x text (G _ _ X)) as [y Y]. rewrite Y. cbn [bind]. set (s1 := put_model s m y).
  assert (G1 : all_good s1) by (eapply keeps_put; [exact X|intros P; eapply blend_good; [exact Y|exact P]|exact G]). 
  assert (A1 : forall m', alive s m' -> alive s1 m') by (intros m' A; apply (alive_put s m x y m' X); exact A).
  assert (K1 : known s1) by (destruct K as [N A]; split; [exact N|]; eapply Forall_impl; [|exact A]; exact A1).
  assert (S1 : stocked s1).
  { destruct S as [N A]. split; [exact N|]. intros m' z IN Z. destruct (Nat.eq_dec m m') as [<-|NE].
    - unfold s1 in Z. rewrite (model_put _ _ _ _ X) in Z. injection Z as <-. rewrite (blend_listed _ _ _ Y). eapply A; eassumption.
    - unfold s1 in Z. rewrite model_put_other in Z by exact NE. eapply A; eassumption. }
  destruct (first_model_total s1 (proj1 S1)) as (s2 & m2 & E2 & Q2 & IN2). rewrite E2. cbn [bind]. pose proof (first_model_heap _ _ E2) as H2. pose proof (proj1 (proj2 (pres_first_model _ _ E2))) as M2.
  destruct (base s1 s2 H2 M2 G1 K1 S1) as (G2 & K2 & S2). assert (IN3 : In m2 (PropsLife.listed s2)) by (unfold PropsLife.listed in *; rewrite M2; exact IN2).
  pose proof (proj2 K2) as A2. rewrite Forall_forall in A2. destruct (A2 m2 IN3) as [x2 X2]. destruct (first_total s2 m2 x2 Q2 X2) as [s3 E3]; [exact (proj2 S2 m2 x2 IN3 X2)|]. exists s3. split; [exact E3|].
  split; [eapply keeps_kin; [eapply mild_first; exact E3|eapply far_first; exact E3|exact G2]|]. split; [eapply far_known; [eapply far_first; exact E3|exact K2]|]. split; [eapply stock_pres; [eapply pres_first; exact E3|eapply far_first; exact E3|exact S2]|].
  rewrite (proj1 (proj2 (pres_first _ _ E3))), M2. reflexivity.
Qed.
Lemma blend_dir_goes o url l : forall s b, all_good s -> known s -> stocked s -> (forall m, In m l -> In m (PropsLife.listed s)) -> exists r, blend_dir o url s l b = Ok r.
Proof.
  induction l as [|m l IH]; intros s b G K S IN; cbn [blend_dir]; [eauto|]. pose proof (proj2 K) as A. rewrite Forall_forall in A. pose proof (A m (IN m (or_introl eq_refl))) as AM. pose proof AM as [x X]. rewrite X. cbn [bind].
  match goal with |- context [blend_model s m ?t] => destruct (blend_model_goes s m t G K S AM) as (s1 & E1 & G1 & K1 & S1 & M1) end. rewrite E1. cbn [bind]. apply IH; auto.
  intros z Z. unfold PropsLife.listed in *. rewrite M1. apply IN. now right.
Qed.
Lemma blend_goes o s url : all_good s -> known s -> ((os_is_dir o url || os_is_file o url)%bool = true -> stocked s) -> exists r, blend_original o s url = Ok r.
Proof.
  intros G K S. unfold blend_original. destruct (os_is_dir o url); [|destruct (os_is_file o url); [|eauto]]; specialize (S eq_refl); destruct (listed_some s (proj1 S)) as (l & M & L & N); unfold the_list; rewrite M; cbn [bind].
  - apply blend_dir_goes; auto. rewrite L. auto.
  - destruct l as [|m l]; [congruence|]. cbn [model_at Z.ltb Z.compare Z.to_nat nth_error bind]. pose proof (proj2 K) as A. rewrite Forall_forall in A.
    destruct (blend_model_goes s m (os_read o url) G K S) as (s1 & E1 & _); [apply A; rewrite L; now left|]. rewrite E1. cbn [bind]. eauto.
Qed.
Lemma output_goes o s text : (forall l, Permutation (os_sort o l) l) -> ml_info s <> None -> parses o text -> exists r, parse_diff_output o s text = Ok r.
Proof.
  intros HP I [p E]. destruct (ml_info s) as [i|] eqn:IS; [|congruence]. destruct (po_models p) as [ms|] eqn:EM.
  - destruct (parse_output_ok o s text p ms i (conj HP (conj E EM)) IS) as (s' & l & m & R & _). eauto.
  - destruct (parse_output_fails o s text p i (conj E EM) IS) as (s' & R & _). eauto.
Qed.
Lemma open_goes o s text : (forall l, Permutation (os_sort o l) l) -> ml_info s <> None -> parses o text -> exists r, parse_and_open o s text = Ok r.
Proof.
  intros HP I [p E]. destruct (ml_info s) as [i|] eqn:IS; [|congruence]. destruct (po_models p) as [ms|] eqn:EM.
  - destruct (parse_and_open_ok o s text p ms i (conj HP (conj E EM)) IS) as (s' & R & _). eauto.
  - assert (I0 : ml_info (emit (Status Parsing) (clear s)) = Some i) by (unfold clear; destruct (ml_models s); exact IS). destruct (parse_output_fails o _ text p i (conj E EM) I0) as (s' & R & _). unfold parse_and_open. rewrite R. cbn [bind]. eauto.
Qed.
Lemma open_blend_goes o s i : (forall l, Permutation (os_sort o l) l) -> ml_info s = Some i -> parses o (os_read o (in_local_destination i)) -> exists r, open_and_blend o s = Ok r.
Proof.
  intros HP IS [p E]. destruct (po_models p) as [ms|] eqn:EM.
  - destruct (open_and_blend_ok o s p ms i IS (conj HP (conj E EM))) as (s' & R & _). eauto.
  - assert (I0 : ml_info (clear s) = Some i) by (unfold clear; destruct (ml_models s); exact IS).
    destruct (parse_output_fails o (clear s) _ p i (conj E EM) I0) as (s1 & E1 & _). unfold open_and_blend, the_info. rewrite I0. cbn [bind]. rewrite E1. cbn [bind negb]. eauto.
Qed.
Lemma finish_goes o s success st out err : (forall l, Permutation (os_sort o l) l) -> ml_process s = true -> (success = true -> ml_info s <> None /\ parses o out) -> exists s', slot_diff_process_finished o s success st out err = Ok s'.
Proof.
  intros HP P R. destruct success.
  - destruct (R eq_refl) as [I [p E]]. destruct (ml_info s) as [i|] eqn:IS; [|congruence]. destruct (po_models p) as [ms|] eqn:EM.
    + destruct (process_ok o s p ms i st out err P IS (conj HP (conj E EM))) as (s' & E' & _). eauto.
    + unfold slot_diff_process_finished. rewrite P. cbn [negb]. destruct (parse_output_fails o (emit (Status Parsing) s) out p i (conj E EM) IS) as (s1 & E1 & _). rewrite E1. cbn [bind negb]. eauto.
  - unfold slot_diff_process_finished. rewrite P. cbn [negb]. destruct st; cbn [bind]; eauto.
Qed.

Lemma occur_goes o s h : fair o s h -> ready o s h -> fine s -> anchored s -> exists s', occur o s h = Ok s'.
Proof.
  intros [HP FH] R F A. pose proof F as (G & K & H). pose proof (proj2 K) as AL. rewrite Forall_forall in AL. destruct h; cbn [occur ready] in *.
  - now apply next_goes.
  - now apply previous_goes.
  - apply next_model_goes; auto. apply A.
  - now apply previous_model_goes.
  - destruct R as (ML & (m' & x & -> & X & N) & D). eapply pair_goes; eassumption.
  - destruct R as (ML & SH). now apply single_goes.
  - now apply apply_goes.
  - now apply apply_all_goes.
  - destruct R as (S & D & SH). exact (action_goes s true F S A D SH).
  - destruct R as (S & D & SH). exact (action_goes s false F S A D SH).
  - unfold slot_action_apply_all. destruct (apply_all_goes s b F R) as [s1 E]. rewrite E. cbn [bind]. apply update_total; [eapply keeps_kin; [eapply mild_apply_all; exact E|eapply far_apply_all; exact E|exact G]|eapply apply_all_held; eassumption].
  - unfold slot_save. destruct (ml_sel s) as [m|] eqn:S; [|eauto]. destruct (save_goes e s m G (proj1 H m S)) as [[s1 b] ->]. cbn [bind]. eauto.
  - destruct (save_goes e s m G R) as [r ->]. cbn [bind]. eauto.
  - unfold save_all_models, model_count, the_list. unfold PropsLife.listed in AL. destruct (ml_models s) as [l|] eqn:M; [|cbn; eauto]. destruct (Z.eqb _ _); [cbn [bind]; eauto|]. cbn [bind]. destruct (save_models_total envs l 0 s AL G) as [r ->]. cbn [bind]. eauto.
  - unfold set_read_write. destruct (Bool.eqb _ _); [eauto|]. apply update_total; [exact G|exact H].
  - eauto.
  - eauto.
  - unfold show, the_list. destruct (ml_models s); [cbn [bind]; eauto|congruence].
  - destruct R as (i & I & [RD|[R1 R2]]).
    + destruct (PropsJobs.compare_runs o s i I RD) as (m & E). rewrite E. cbn [bind]. eauto.
    + destruct (Jobs.runs_diff o i) eqn:RD; [destruct (PropsJobs.compare_runs o s i I RD) as (m & E); rewrite E; cbn [bind]; eauto|].
      destruct (PropsJobs.compare_blends o s i I RD) as (j & E & SJ). rewrite E.
      destruct (open_blend_goes o (with_info s (Some j)) j HP eq_refl) as [r ->]; [|cbn [bind]; eauto]. destruct SJ as [SJ|SJ]; injection SJ as _ ->; assumption.
  - unfold refresh, the_info. destruct (ml_info s); [cbn [bind]; eauto|congruence].
  - unfold swap, the_info. destruct (ml_info s) as [i|]; [cbn [bind]; destruct (in_mode i); eauto|congruence].
  - unfold open_diff. destruct file as [|c file]; [cbn [bind]; eauto|]. destruct R as [R|[I R]]; [discriminate R|]. destruct (open_goes o s _ HP I R) as [r ->]. cbn [bind]. eauto.
  - destruct R as [I R]. destruct (open_goes o s _ HP I R) as [r ->]. cbn [bind]. eauto.
  - destruct R as (i & I & R). destruct (open_blend_goes o s i HP I R) as [r ->]. cbn [bind]. eauto.
  - destruct R as [I R]. destruct (output_goes o s _ HP I R) as [r ->]. cbn [bind]. eauto.
  - destruct (blend_goes o s url G K R) as [r ->]. cbn [bind]. eauto.
  - destruct R as [P R]. now apply finish_goes.
  - destruct R as [x X]. rewrite X. cbn [bind]. eauto.
Qed.

(** * C96 *)
(** A history in which the caller respects what he has to; what has to hold of the state is asked of each state the history goes through. *)
Fixpoint polite_life (s : mlist) (hs : list (outside * happening)) : Prop :=
  match hs with
  | [] => True
  | (o, h) :: hs' => fair o s h /\ steady o s h /\ ready o s h /\ forall s', occur o s h = Ok s' -> polite_life s' hs'
  end.
Lemma polite_parts hs : forall s, polite_life s hs -> fair_life s hs /\ steady_life s hs.
Proof.
  induction hs as [|[o h] hs IH]; intros s P; cbn [polite_life fair_life steady_life] in *; [auto|]. destruct P as (F & S & _ & P). split; (split; [assumption|]); intros s' E; apply (IH s'), P, E.
Qed.
Lemma polite_goes hs : forall s, polite_life s hs -> fine s -> anchored s -> exists s', life s hs = Ok s'.
Proof.
  induction hs as [|[o h] hs IH]; intros s P F A; cbn [life polite_life] in *; [eauto|]. destruct P as (FA & ST & R & P). destruct (occur_goes o s h FA R F A) as [s1 E]. rewrite E. cbn [bind]. apply IH; [apply P; exact E| |eapply occur_anchored; eassumption].
  assert (L : life s [(o, h)] = Ok s1) by (cbn [life]; rewrite E; reflexivity). eapply (life_fine [(o, h)]); [exact L| | |exact F]; cbn; auto.
Qed.
Lemma new_fine support : fine (new_mlist support) /\ anchored (new_mlist support).
Proof.
  split; [|split; cbn; [lia|congruence]]. split; [apply new_good|]. split; [split; cbn; constructor|]. split; [intros m Q; discriminate Q|intros m k Q; discriminate Q].
Qed.
(** Nothing that a caller does who respects what he has to is undefined, in any history and whatever diff prints, whatever is on the disk and
    however reading, writing and the process end. *)
Theorem C96_polite_history_defined :
  forall support hs, polite_life (new_mlist support) hs -> exists s, life (new_mlist support) hs = Ok s.
Proof. intros support hs P. destruct (new_fine support). now apply polite_goes. Qed.
Print Assumptions C96_polite_history_defined.
(** At the end of such a history every query is defined: hasUnsavedChanges(), currentDifference(), differenceCount(), appliedCount(), and, while there is a
    list, currentModel() and findModel() with any pointer. *)
Theorem C96_queries_defined :
  forall support hs s, polite_life (new_mlist support) hs -> life (new_mlist support) hs = Ok s ->
  (exists u, has_unsaved_changes s = Ok u) /\ (exists n, current_difference s = Ok n) /\ (exists n, difference_count s = Ok n) /\ (exists n, applied_count s = Ok n) /\
  (ml_models s <> None -> (exists n, current_model s = Ok n) /\ forall m, exists n, find_model s m = Ok n).
Proof.
  intros support hs s P H. destruct (polite_parts _ _ P) as [FA ST]. destruct (new_fine support) as [NF _]. destruct (life_fine _ _ _ H FA ST NF) as (G & K & [SO DO]). split; [exact (proj1 (C94_list_usable _ _ _ H FA))|].
  assert (W : forall (f : nat -> dmodel -> Z), exists n, match ml_sel s with None => Ok (-1) | Some m => do x <- model_of s m; Ok (f m x) end = Ok n).
  { intros f. destruct (ml_sel s) as [m|] eqn:S; [|eauto]. destruct (SO m S) as [x X]. rewrite X. cbn [bind]. eauto. }
  split; [exact (W (fun m x => index_of_diff m x (ml_diff s)))|]. split; [exact (W (fun _ x => Z.of_nat (length (dm_diffs x))))|]. split; [exact (W (fun _ x => dm_applied x))|].
  intros N. unfold current_model, find_model, the_list. destruct (ml_models s) as [l|]; [|congruence]. cbn [bind]. eauto.
Qed.
Print Assumptions C96_queries_defined.

(** What is asked is needed: exactly, for these calls; *)
Definition asked_exactly (h : happening) : bool :=
  match h with
  | HApply _ | HApplyAll _ | HActApplyAll _ | HSaveModel _ _ | HModel _ _ | HShow | HRefresh | HSwap | HOpenDiff _ | HParseAndOpen _ | HParseOutput _ | HOpenAndBlend | HFinished _ _ _ _ => true
  | _ => false
  end.
Lemma output_needs o s text r : parse_diff_output o s text = Ok r -> ml_info s <> None /\ parses o text.
Proof.
  unfold parse_diff_output. intros H. step H. step H. split; [|now exists a]. unfold the_info in E0. destruct (po_models a); cbn in E0; (destruct (ml_info s); [congruence|discriminate]).
Qed.
Lemma clear_info s : ml_info (clear s) = ml_info s. Proof. unfold clear. destruct (ml_models s); reflexivity. Qed.
Lemma open_needs o s text r : parse_and_open o s text = Ok r -> ml_info s <> None /\ parses o text.
Proof. unfold parse_and_open. intros H. step H. apply output_needs in E. cbn [emit ml_info] in E. rewrite clear_info in E. exact E. Qed.
Theorem C96_asked_is_needed :
  forall o s h s', asked_exactly h = true -> occur o s h = Ok s' -> ready o s h.
Proof.
  intros o s h s' Q H. destruct h; try discriminate Q; cbn [occur ready] in *.
  - unfold slot_apply_difference in H. step H. destruct a as [m x]. step H. apply selected_inv in E as [S X]. exists m. split; [exact S|]. intros x' X'. rewrite X in X'. injection X' as <-. unfold apply_difference in E0. destruct (dm_sel x); [congruence|discriminate].
  - unfold slot_apply_all in H. step H. destruct a as [m x]. apply selected_inv in E as [S X]. congruence.
  - unfold slot_action_apply_all in H. step H. unfold slot_apply_all in E. step E. destruct a0 as [m x]. apply selected_inv in E0 as [S X]. congruence.
  - step H. unfold save_model in E. step E. now exists a0.
  - unfold show, the_list in H. destruct (ml_models s); [congruence|discriminate].
  - unfold refresh, the_info in H. destruct (ml_info s); [congruence|discriminate].
  - unfold swap, the_info in H. destruct (ml_info s); [congruence|discriminate].
  - step H. unfold open_diff in E. destruct file as [|c file]; [now left|right]. eapply open_needs. exact E.
  - step H. eapply open_needs. exact E.
  - step H. unfold open_and_blend in E. step E. step E. apply output_needs in E1 as [_ P]. unfold the_info in E0. rewrite clear_info in E0. destruct (ml_info s) as [i|]; [|discriminate]. injection E0 as ->. eauto.
  - step H. eapply output_needs. exact E.
  - unfold slot_diff_process_finished in H. destruct (ml_process s); [|discriminate]. split; [reflexivity|]. intros ->. cbn [negb] in H. step H. step E. apply output_needs in E0. exact E0.
  - step H. now exists a.
Qed.
Print Assumptions C96_asked_is_needed.
(** and for the others there are histories after which the call without it is undefined: steps and the apply action on an empty list (also one that clear() or a
    comparison in progress has emptied), on a list of which a model has lost all its differences to an edit, a selection by a null pointer, of a model or a difference that is
    not there or of a model without differences, comparing without information, and blending into an empty list. *)
Definition emptied : list (outside * happening) := map (fun h => (here, h)) [HInfo two_urls; HRefresh; HFinished true NormalExit two_files []; HClear].
Definition comparing_again : list (outside * happening) := map (fun h => (here, h)) [HInfo two_urls; HRefresh; HFinished true NormalExit two_files []; HRefresh].
Definition bare : dmodel := match life (new_mlist true) before_edit with Ok s => match model_of s 0 with Ok x => match do_calls ex_hash x [EditLines [nl "x"] [nl "2"] 2] with Ok y => y | _ => x end | _ => new_model [] [] end | _ => new_model [] [] end.
Definition edited_bare : list (outside * happening) := before_edit ++ [(here, HModel 0 bare)].
Definition undefined_after (hs : list (outside * happening)) (h : happening) : Prop := exists s why, life (new_mlist true) hs = Ok s /\ occur here s h = UB why.
Theorem C96_others_needed :
  Forall (undefined_after []) [HNextDifference; HPreviousDifference; HNextModel; HPreviousModel; HSelect None None; HSelect (Some 0%nat) None; HSelectDifference None; HActApply; HActUnapply; HCompare; HBlendOriginal (lit "/old")] /\
  Forall (undefined_after emptied) [HNextDifference; HPreviousDifference; HNextModel; HPreviousModel; HActApply; HActUnapply; HSelect None None; HSelect (Some 7%nat) None; HSelect (Some 0%nat) (Some (7, 0)%nat); HBlendOriginal (lit "/old")] /\
  Forall (undefined_after comparing_again) [HNextDifference; HPreviousDifference; HNextModel; HPreviousModel; HActApply; HActUnapply; HBlendOriginal (lit "/old")] /\
  Forall (undefined_after edited_bare) [HPreviousModel; HPreviousDifference; HSelect (Some 0%nat) (Some (1, 0)%nat); HBlendOriginal (lit "/old")] /\ dm_diffs bare = [].
Proof.
  assert (Q : forall r h, match r with Ok s => match occur here s h with UB _ => true | _ => false end | _ => false end = true -> exists s why, r = Ok s /\ occur here s h = UB why).
  { intros [s| |] h K; try discriminate K. destruct (occur here s h) as [|why|] eqn:O; try discriminate K. eauto. }
  assert (V : forall hs l, forallb (fun h => match life (new_mlist true) hs with Ok s => match occur here s h with UB _ => true | _ => false end | _ => false end) l = true -> Forall (undefined_after hs) l).
  { intros hs l K. rewrite forallb_forall in K. apply Forall_forall. intros h IN. apply Q. exact (K h IN). }
  split; [apply V; vm_compute; reflexivity|]. split; [apply V; vm_compute; reflexivity|]. split; [apply V; vm_compute; reflexivity|]. split; [apply V; vm_compute; reflexivity|vm_compute; reflexivity].
Qed.
Print Assumptions C96_others_needed.

(** * Example *)
(** A long history, checked by computing; the holder of a model edits it on the way. *)
Definition parses_b (o : outside) (text : str) : bool := match parse (os_sort o) (split_lines text) with Ok _ => true | _ => false end.
Definition stocked_b (s : mlist) : bool :=
  match PropsLife.listed s with [] => false | l => forallb (fun m => match model_of s m with Ok x => match dm_diffs x with [] => false | _ => true end | _ => true end) l end.
Definition selected_b (s : mlist) (P : dmodel -> bool) : bool := match ml_sel s with Some m => match model_of s m with Ok x => P x | _ => true end | None => false end.
Definition is_some {A} (x : option A) : bool := match x with Some _ => true | None => false end.
Definition alive_b (s : mlist) (m : nat) : bool := match model_of s m with Ok _ => true | _ => false end.
Definition steady_b (o : outside) (s : mlist) (h : happening) : bool :=
  match h with
  | HParseOutput diff | HFinished true _ diff _ => match parse (os_sort o) (split_lines diff) with Ok p => is_some (po_models p) || Z.eqb (model_count s) 0 | _ => true end
  | _ => true
  end%bool.
Definition ready_b (o : outside) (s : mlist) (h : happening) : bool :=
  match h with
  | HNextDifference | HPreviousDifference | HNextModel | HPreviousModel => stocked_b s
  | HSelect (Some m) d => is_some (ml_models s) && match model_of s m with Ok x => match dm_diffs x with [] => false | _ => true end | _ => false end &&
                          match d with Some (m', k) => match model_of s m' with Ok x => Nat.ltb k (length (dm_store x)) | _ => false end | None => true end
  | HSelectDifference _ => is_some (ml_models s) && selected_b s (fun x => match dm_diffs x with [] => false | _ => true end)
  | HApply _ => selected_b s (fun x => is_some (dm_sel x))
  | HApplyAll _ | HActApplyAll _ => is_some (ml_sel s)
  | HActApply | HActUnapply => stocked_b s && is_some (ml_diff s) && selected_b s (fun x => is_some (dm_sel x))
  | HSaveModel _ m | HModel m _ => alive_b s m
  | HSaveSelected _ | HSaveAll _ | HReadWrite _ | HInfo _ | HClear => true
  | HShow => is_some (ml_models s)
  | HCompare => match ml_info s with Some i => Jobs.runs_diff o i | None => false end
  | HRefresh | HSwap => is_some (ml_info s)
  | HOpenDiff file => is_some (ml_info s) && parses_b o (os_read o file)
  | HParseAndOpen text | HParseOutput text => is_some (ml_info s) && parses_b o text
  | HOpenAndBlend => match ml_info s with Some i => parses_b o (os_read o (in_local_destination i)) | None => false end
  | HBlendOriginal _ => stocked_b s
  | HFinished success _ text _ => ml_process s && (negb success || is_some (ml_info s) && parses_b o text)
  | _ => false
  end%bool.
Fixpoint polite_b (s : mlist) (hs : list (outside * happening)) : bool :=
  match hs with
  | [] => true
  | (o, h) :: hs' => (steady_b o s h && ready_b o s h && match occur o s h with Ok s' => polite_b s' hs' | _ => true end)%bool
  end.
Lemma parses_b_ok o t : parses_b o t = true -> parses o t. Proof. unfold parses_b, parses. destruct (parse _ _); [eauto|discriminate|discriminate]. Qed.
Lemma is_some_ok {A} (x : option A) : is_some x = true -> x <> None. Proof. destruct x; [congruence|discriminate]. Qed.
Lemma stocked_b_ok s : stocked_b s = true -> stocked s.
Proof.
  unfold stocked_b, stocked. destruct (PropsLife.listed s) as [|m l]; [discriminate|]. intros Q. split; [congruence|]. rewrite forallb_forall in Q. intros m' x IN X. specialize (Q m' IN). rewrite X in Q. destruct (dm_diffs x); [discriminate|congruence].
Qed.
Lemma selected_b_ok s (P : dmodel -> bool) (R : dmodel -> Prop) : selected_b s P = true -> (forall x, P x = true -> R x) -> selected_has s R.
Proof. unfold selected_b, selected_has. destruct (ml_sel s) as [m|]; [|discriminate]. intros Q W. exists m. split; [reflexivity|]. intros x X. rewrite X in Q. now apply W. Qed.
Lemma nonempty_ok {A} (l : list A) : match l with [] => false | _ => true end = true -> l <> []. Proof. destruct l; congruence. Qed.
Lemma alive_b_ok s m : alive_b s m = true -> alive s m. Proof. unfold alive_b, alive. destruct (model_of s m); [eauto|discriminate|discriminate]. Qed.
Lemma steady_b_ok o s h : steady_b o s h = true -> steady o s h.
Proof.
  assert (W : forall diff, match parse (os_sort o) (split_lines diff) with Ok p => is_some (po_models p) || Z.eqb (model_count s) 0 | _ => true end%bool = true -> forall p, parse (os_sort o) (split_lines diff) = Ok p -> po_models p = None -> model_count s = 0).
  { intros diff Q p P N. rewrite P, N in Q. cbn in Q. now apply Z.eqb_eq. }
  destruct h; try (intros _; exact I); cbn; [apply W|]. destruct success; [apply W|intros _; exact I].
Qed.
Lemma ready_b_ok o s h : ready_b o s h = true -> ready o s h.
Proof.
  destruct h; cbn [ready_b ready]; intros Q; try exact I; try (now apply stocked_b_ok); try (now apply is_some_ok); try (now apply alive_b_ok).
  - destruct m as [m|]; [|discriminate]. apply andb_prop in Q as [Q Q3]. apply andb_prop in Q as [Q1 Q2]. split; [now apply is_some_ok|]. split.
    + destruct (model_of s m) as [x| |] eqn:X; try discriminate Q2. exists m, x. split; [reflexivity|]. split; [exact X|now apply nonempty_ok].
    + intros m' k ->. destruct (model_of s m') as [x| |]; try discriminate Q3. exists x. split; [reflexivity|now apply Nat.ltb_lt].
  - apply andb_prop in Q as [Q1 Q2]. split; [now apply is_some_ok|]. eapply selected_b_ok; [exact Q2|]. intros x. apply nonempty_ok.
  - eapply selected_b_ok; [exact Q|]. intros x. apply is_some_ok.
  - apply andb_prop in Q as [Q Q3]. apply andb_prop in Q as [Q1 Q2]. split; [now apply stocked_b_ok|]. split; [now apply is_some_ok|]. eapply selected_b_ok; [exact Q3|]. intros x. apply is_some_ok.
  - apply andb_prop in Q as [Q Q3]. apply andb_prop in Q as [Q1 Q2]. split; [now apply stocked_b_ok|]. split; [now apply is_some_ok|]. eapply selected_b_ok; [exact Q3|]. intros x. apply is_some_ok.
  - destruct (ml_info s) as [i|]; [|discriminate]. eauto.
  - right. apply andb_prop in Q as [Q1 Q2]. split; [now apply is_some_ok|now apply parses_b_ok].
  - apply andb_prop in Q as [Q1 Q2]. split; [now apply is_some_ok|now apply parses_b_ok].
  - destruct (ml_info s) as [i|]; [|discriminate]. exists i. split; [reflexivity|now apply parses_b_ok].
  - apply andb_prop in Q as [Q1 Q2]. split; [now apply is_some_ok|now apply parses_b_ok].
  - intros _. now apply stocked_b_ok.
  - apply andb_prop in Q as [Q1 Q2]. split; [exact Q1|]. intros ->. cbn [negb orb] in Q2. apply andb_prop in Q2 as [Q2 Q3]. split; [now apply is_some_ok|now apply parses_b_ok].
Qed.
Lemma polite_b_ok hs : forall s, polite_b s hs = true -> fair_life s hs -> polite_life s hs.
Proof.
  induction hs as [|[o h] hs IH]; intros s Q F; cbn [polite_b polite_life fair_life] in *; [exact I|]. destruct F as [F1 F2]. apply andb_prop in Q as [Q Q3]. apply andb_prop in Q as [Q1 Q2]. split; [exact F1|]. split; [now apply steady_b_ok|]. split; [now apply ready_b_ok|].
  intros s' E. rewrite E in Q3. apply IH; [exact Q3|now apply F2].
Qed.
Definition goes_on : list (outside * happening) := map (fun h => (here, h))
  [HReadWrite false; HReadWrite true; HNextDifference; HPreviousDifference; HSelectDifference None; HRefresh; HReadWrite false; HFinished false NormalExit [] []; HParseAndOpen two_files; HPreviousModel; HSelect (Some 3%nat) (Some (3, 0)%nat);
   HActUnapply; HShow; HBlendOriginal (lit "/old"); HParseOutput two_files; HSaveModel good 4; HApply true; HSaveSelected good; HClear; HOpenDiff (lit "/a.diff"); HCompare; HSwap; HFinished true NormalExit two_files []; HNextModel].
Example C96_example : polite_life (new_mlist true) ((before_edit ++ after_edit) ++ goes_on) /\ length ((before_edit ++ after_edit) ++ goes_on) = 33%nat.
Proof.
  split; [|reflexivity]. apply polite_b_ok; [vm_compute; reflexivity|]. apply fair_app; [destruct C94_example as (s & x & y & _ & F & _); exact F|]. intros s' _. apply fair_plain. unfold goes_on.
  repeat (constructor; [split; [intros l; apply Permutation_refl|exact I]|]). constructor.
Qed.
