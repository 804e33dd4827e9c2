(** Specification of the calls a user makes on one model, in any order. *)
From Verif Require Import Base Diff LinesChanged SpecHistory.
Local Open Scope Z_scope.

Inductive call :=
| First | Last | Next | Prev                              (* DiffModel::firstDifference and so on *)
| SelectAt (k : nat)                                      (* setSelectedDifference(differenceAt(k)) *)
| SelectOther (i : option nat)                            (* setSelectedDifference of any pointer, or null *)
| ApplyOne (b : bool) | ApplyEach (b : bool)              (* applyDifference, applyAllDifferences *)
| EditLines (old new : list str) (line : Z).              (* linesChanged *)
Definition do_call (qhash : str -> N) (m : dmodel) (c : call) : res dmodel :=
  match c with
  | First => do r <- first_difference m; Ok (fst r)
  | Last => do r <- last_difference m; Ok (fst r)
  | Next => do r <- next_difference m; Ok (fst r)
  | Prev => do r <- prev_difference m; Ok (fst r)
  | SelectAt k => do i <- diff_at m (Z.of_nat k); Ok (fst (set_selected_difference m (Some i)))
  | SelectOther i => Ok (fst (set_selected_difference m i))
  | ApplyOne b => apply_difference m b
  | ApplyEach b => apply_all m b
  | EditLines old new line => do r <- lines_changed qhash m old new line; Ok (fst (fst r))
  end.
Fixpoint do_calls (qhash : str -> N) (m : dmodel) (cs : list call) : res dmodel :=
  match cs with [] => Ok m | c :: cs' => do m' <- do_call qhash m c; do_calls qhash m' cs' end.
(** What a caller has to respect: the first or last of no differences, a position outside the list, applying the selected
    difference when there is none; and the edits as in C32 and C35. *)
Definition respected (qhash : str -> N) (m : dmodel) (c : call) : Prop :=
  match c with
  | First | Last => dm_diffs m <> []
  | SelectAt k => (k < length (dm_diffs m))%nat
  | ApplyOne _ => dm_sel m <> None
  | EditLines old new line => exists r, lines_changed qhash m old new line = Ok r
  | _ => True
  end.
Fixpoint all_respected (qhash : str -> N) (m : dmodel) (cs : list call) : Prop :=
  match cs with
  | [] => True
  | c :: cs' => respected qhash m c /\ forall m', do_call qhash m c = Ok m' -> all_respected qhash m' cs'
  end.
(** No pointer of the model dangles. *)
Definition pointers_good (m : dmodel) : Prop :=
  (forall i, In i (dm_diffs m) -> (i < length (dm_store m))%nat) /\
  (forall h i, In h (dm_hunks m) -> In i (h_diffs h) -> (i < length (dm_store m))%nat) /\
  (forall i, dm_sel m = Some i -> (i < length (dm_store m))%nat) /\
  NoDup (dm_diffs m) /\ 0 <= dm_index m.
