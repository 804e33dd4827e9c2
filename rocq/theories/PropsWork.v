(** C103: working with a diff does not change what it says. *)
From Coq Require Import String.
From Verif Require Import Base QtStr Diff Save Parser Blend Info ModelList Life Reentrant SpecReentrant SpecWork PKin PReentrant PWork.
From Verif Require PropsList.
Local Open Scope Z_scope.

Lemma lively_silent : forall hs s, lively (fun _ _ => []) 0 s hs = life s hs.
Proof.
  induction hs as [|[o h] hs IH]; intros s; [reflexivity|]. cbn [lively life]. change (nested (fun _ _ => []) o 0) with (fun (_ : signal) (t : mlist) => Ok t).
  change (fun (_ : signal) (t : mlist) => Ok t) with silent. rewrite occur_silent. destruct (occur o s h); [apply IH|reflexivity|reflexivity].
Qed.
Lemma alive_there s m x : model_of s m = Ok x -> (m < length (ml_heap s))%nat.
Proof. unfold model_of. intros H. apply nth_error_Some. destruct (nth_error (ml_heap s) m); congruence. Qed.
Lemma held_models st m s s' x y : held st m s s' -> model_of s m = Ok x -> model_of s' m = Ok y -> same st x y.
Proof. intros P X Y. destruct (P (alive_there _ _ _ X)) as (_ & _ & Q). destruct (Q y Y) as (x' & X' & S). rewrite X in X'. now injection X' as ->. Qed.

(** Whatever is called, on any list: moves, selections with any pointers, applying, saving with any outcome, blending any file, comparing,
    refreshing, opening other texts, the end of diff; slots that call the list back are welcome, to any depth. Of a model that is there
    before and after, all that the diff says is the same, unless one of its own functions was called (linesChanged() and the like). *)
Theorem C103_work_leaves_the_diff :
  forall calls n s hs s' m x y, (forall g s c s' h, In c (calls g s) -> c s' = Some h -> edits m h = false) ->
  (forall o h, In (o, h) hs -> edits m h = false) -> lively calls n s hs = Ok s' -> model_of s m = Ok x -> model_of s' m = Ok y -> same_diff x y.
Proof.
  intros calls n s hs s' m x y C A H X Y. assert (P : held false m s s').
  { eapply held_lively; [|intros o h IN; split; [eapply A; exact IN|discriminate]|exact H]. intros g s0 c s1 h IN E. split; [eapply C; eassumption|discriminate]. }
  exact (proj1 (held_models _ _ _ _ _ _ P X Y)).
Qed.
Print Assumptions C103_work_leaves_the_diff.
(** The same for histories of Life.v, without slots. *)
Theorem C103_any_history :
  forall s hs s' m x y, (forall o h, In (o, h) hs -> edits m h = false) -> life s hs = Ok s' -> model_of s m = Ok x -> model_of s' m = Ok y -> same_diff x y.
Proof. intros s hs s' m x y A H X Y. rewrite <- lively_silent in H. eapply C103_work_leaves_the_diff; try eassumption. intros g s0 c s1 h []. Qed.
Print Assumptions C103_any_history.
(** So DiffModel::recreateDiff() prints what it printed before, for each model, and ModelList::recreateDiff() for the models [l] of the list. *)
Theorem C103_text_of_the_diff :
  forall s hs s' m x y t, (forall o h, In (o, h) hs -> edits m h = false) -> life s hs = Ok s' -> model_of s m = Ok x -> model_of s' m = Ok y ->
  recreate_diff x = Ok t -> recreate_diff y = Ok t.
Proof. intros s hs s' m x y t A H X Y. apply same_recreate. eapply C103_any_history; eassumption. Qed.
Print Assumptions C103_text_of_the_diff.
Theorem C103_text_of_the_list :
  forall s hs s' l xs ys t, (forall m o h, In m l -> In (o, h) hs -> edits m h = false) -> life s hs = Ok s' ->
  Forall2 (fun m x => model_of s m = Ok x) l xs -> Forall2 (fun m y => model_of s' m = Ok y) l ys ->
  recreate_all xs = Ok t -> recreate_all ys = Ok t.
Proof.
  intros s hs s' l xs ys t A H FX. revert ys t. induction FX as [|m x l xs X FX IH]; intros ys t FY R; inversion FY as [|? y ? ys' Y FY' Q1 Q2]; subst; [exact R|].
  cbn [recreate_all] in *. step R. step R. injection R as <-. erewrite (C103_text_of_the_diff s hs s' m x y); [|intros o h IN; eapply A; [now left|exact IN]|eassumption..]. cbn [bind].
  rewrite (IH (fun m o h IN => A m o h (or_intror IN)) ys' a0 FY' eq_refl). reflexivity.
Qed.
Print Assumptions C103_text_of_the_list.
(** Which differences are applied is only changed by the calls that apply; one of these changes the selected difference and no other. *)
Theorem C103_only_applying_applies :
  forall calls n s hs s' m x y, (forall g s c s' h, In c (calls g s) -> c s' = Some h -> edits m h = false /\ applies h = false) ->
  (forall o h, In (o, h) hs -> edits m h = false /\ applies h = false) -> lively calls n s hs = Ok s' -> model_of s m = Ok x -> model_of s' m = Ok y -> same_marks x y.
Proof.
  intros calls n s hs s' m x y C A H X Y. assert (P : held true m s s').
  { eapply held_lively; [|intros o h IN; destruct (A o h IN); auto|exact H]. intros g s0 c s1 h IN E. destruct (C g s0 c s1 h IN E). auto. }
  exact (proj2 (held_models _ _ _ _ _ _ P X Y) eq_refl).
Qed.
Print Assumptions C103_only_applying_applies.
Theorem C103_one_difference_is_applied :
  forall o s b s' m x y i d, occur o s (HApply b) = Ok s' -> model_of s m = Ok x -> model_of s' m = Ok y -> nth_error (dm_store x) i = Some d ->
  exists e, nth_error (dm_store y) i = Some e /\ d_applied e = (if (sel_eqb (ml_sel s) (Some m) && sel_eqb (dm_sel x) (Some i))%bool then b else d_applied d).
Proof.
  intros o s b s' m x y i d H X Y N. cbn [occur] in H. unfold slot_apply_difference in H. step H. destruct a as [j z]. apply selected_inv in E as [SE E]. step H. injection H as <-. rewrite SE.
  unfold sel_eqb at 1. destruct (Nat.eqb_spec j m) as [->|NE].
  - rewrite X in E. injection E as <-. cbn [andb]. change (model_of (put_model s m a) m = Ok y) in Y. rewrite (PList.model_put s m a x X) in Y. injection Y as <-. eapply apply_one; eassumption.
  - cbn [andb]. change (model_of (put_model s j a) m = Ok y) in Y. rewrite PList.model_put_other in Y by exact NE. rewrite X in Y. injection Y as <-. eauto.
Qed.
Print Assumptions C103_one_difference_is_applied.

(** * Cases *)
(** All differences of the first file are applied, the second file is shown, saved, blended with an old file; then another text is opened:
    the models of the first one are still there, and say what they said, though other differences are applied. *)
Definition saved_well : save_env := mk_save_env true true true true true true true.
Definition with_file : outside := mk_outside (fun l => l) (fun _ => concat (repeat (lit "x" ++ [NL])%list 99)) (fun _ => false) (fun _ => true) (fun _ => true) (fun _ => false) (fun a b => (a ++ lit "/" ++ b)%list).
Definition some_work : list (outside * happening) :=
  [(PropsList.world, HApplyAll true); (PropsList.world, HNextModel); (PropsList.world, HSaveSelected saved_well); (with_file, HBlendOriginal (lit "/old"));
   (PropsList.world, HParseAndOpen PropsList.two_files); (PropsList.world, HNextDifference)].
Definition marks_of (s : mlist) (m : nat) : list bool := match model_of s m with Ok x => map d_applied (dm_store x) | _ => [] end.
Definition text_at (s : mlist) (m : nat) : str := match model_of s m with Ok x => match recreate_diff x with Ok t => t | _ => [] end | _ => [] end.
Definition hunks_at (s : mlist) (m : nat) : nat := match model_of s m with Ok x => length (dm_hunks x) | _ => 0 end.
Definition worked : mlist := match life PropsList.three some_work with Ok s => s | _ => PropsList.three end.
Example C103_example :
  life PropsList.three some_work = Ok worked /\ (forall m o h, In (o, h) some_work -> edits m h = false) /\
  marks_of PropsList.three 0 <> marks_of worked 0 /\ hunks_at PropsList.three 0 <> hunks_at worked 0 /\
  text_at worked 0 = text_at PropsList.three 0 /\ text_at worked 0 <> [].
Proof.
  assert (X : match life PropsList.three some_work with Ok _ => true | _ => false end = true) by (vm_compute; reflexivity).
  split; [unfold worked; destruct (life PropsList.three some_work); try discriminate X; reflexivity|]. clear X.
  split; [intros m o h IN; cbn in IN; repeat (destruct IN as [IN|IN]; [injection IN as <- <-; reflexivity|]); destruct IN|].
  split; [vm_compute; discriminate|]. split; [vm_compute; discriminate|]. split; [vm_compute; reflexivity|vm_compute; discriminate].
Qed.
