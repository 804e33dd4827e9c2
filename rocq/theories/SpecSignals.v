(** Specification of what a slot connected to a signal of a ModelList may expect of the list when it is called. *)
From Coq Require Import String Permutation.
From Verif Require Import Base QtStr Diff ModelList Life.
Local Open Scope Z_scope.

(** The signal is true of the list: what it says is what the list answers when it is asked. *)
Definition truthful (g : signal) (s : mlist) : Prop :=
  match g with
  | SetSelection m d => ml_sel s = m /\ ml_diff s = d              (* selectedModel(), selectedDifference() *)
  | SetSelectionOf d => ml_diff s = d
  | SetStatusBar i j models differences applied =>
      current_model s = Ok i /\ current_difference s = Ok j /\ model_count s = models /\
      difference_count s = Ok differences /\ applied_count s = Ok applied
  | Applied b => exists m x k d, ml_sel s = Some m /\ model_of s m = Ok x /\ dm_sel x = Some k /\ deref (dm_store x) k = Ok d /\ d_applied d = b
  | AppliedAll b => exists m x, ml_sel s = Some m /\ model_of s m = Ok x /\ forall k, In k (dm_diffs x) -> exists d, deref (dm_store x) k = Ok d /\ d_applied d = b
  | ModelsChanged l => ml_models s = l
  | Error NotParsed | Error NoModels => ml_models s = None
  | Error Malformed => ml_models s <> None
  | Error Identical | Error (ProcessError _) | Status RunningDiff => ml_process s = true
  | UpdateActions => ml_has_save s = true -> ac_save (ml_act s) = false
  | Error NotApplied | Error SaveProblem | Status Parsing | Status FinishedParsing | DiffString _ => True
  end.

(** Everything that can be asked has an answer: currentModel(), currentDifference(), differenceCount(), appliedCount(),
    hasUnsavedChanges(). *)
Definition is_ok {A} (r : res A) : Prop := exists a, r = Ok a.
Definition answers (s : mlist) : Prop :=
  is_ok (current_model s) /\ is_ok (current_difference s) /\ is_ok (difference_count s) /\ is_ok (applied_count s) /\ is_ok (has_unsaved_changes s).

(** A selection of a model and a difference is what was asked for: no fallback. *)
Definition as_asked (h : happening) (s' : mlist) : Prop :=
  match h with HSelect _ d | HSelectDifference d => ml_diff s' = d | _ => True end.
(** Each signal comes after those that were emitted before it: in the list that a slot finds, its own signal is the last one. *)
Fixpoint in_order (log : list signal) (l : list (signal * mlist)) : Prop :=
  match l with
  | [] => True
  | (g, s) :: l' => ml_out s = log ++ [g] /\ in_order (log ++ [g]) l'
  end.

(** * The calls of SpecList.v as calls of the list *)
From Verif Require Import SpecList.
Definition call_of (s : mlist) (o : lop) : res happening :=
  match o with
  | LNext => Ok HNextDifference | LPrevious => Ok HPreviousDifference | LNextFile => Ok HNextModel | LPreviousFile => Ok HPreviousModel
  | LSelect i k => do l <- the_list s; do m <- model_at l (Z.of_nat i); do x <- model_of s m; do d <- diff_at x (Z.of_nat k); Ok (HSelect (Some m) (Some (m, d)))
  | LSelectDifference k => do r <- selected s; do d <- diff_at (snd r) (Z.of_nat k); Ok (HSelectDifference (Some (fst r, d)))
  | LApply b => Ok (HApply b) | LApplyAll b => Ok (HApplyAll b)
  | LActApply => Ok HActApply | LActUnapply => Ok HActUnapply | LActApplyAll b => Ok (HActApplyAll b)
  | LSave e => Ok (HSaveSelected e) | LSaveAll envs => Ok (HSaveAll envs) | LReadWrite b => Ok (HReadWrite b)
  end.
(** What the list shows while a signal is emitted, if it showed [v] before the call and shows [v'] after it: in most cases what it
    shows after it; an action that applies and then moves on tells of each; saveAll() has saved the first [k] models. *)
Definition stage (o : lop) (v v' w : view) : Prop :=
  match o with
  | LActApply => w = apply_here true v \/ w = v'
  | LActUnapply => w = apply_here false v \/ w = v'
  | LSaveAll _ => exists k, w = with_flags v (firstn k (v_flags v') ++ skipn k (v_flags v))
  | _ => w = v'
  end.
(** The list that clear() leaves. *)
Definition emptied_list (l : option (list nat)) : option (list nat) := match l with Some _ => Some [] | None => None end.
(** Before the new models are selected: the selection is the one of before, and the list is [l] until the new one has been read. *)
Definition still_old (s s' : mlist) (l : option (list nat)) (q : signal * mlist) : Prop :=
  ml_sel (snd q) = ml_sel s /\ ml_diff (snd q) = ml_diff s /\ ml_models (snd q) = match fst q with Error _ => ml_models s' | _ => l end.
(** The list is seen as [v], and everything can be asked. *)
Definition seen (v : view) (q : signal * mlist) : Prop := observed (snd q) v /\ answers (snd q).
Definition is_bar (g : signal) : Prop := exists i j k n a, g = SetStatusBar i j k n a.
