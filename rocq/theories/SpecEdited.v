(** Specification of work on one model that mixes edits of the text with applying and unapplying everything. *)
From Verif Require Import Base Diff LinesChanged SpecInline SpecPatch PropsEdit.
Local Open Scope Z_scope.

(** What the user does: edit some lines (DiffModel::linesChanged, the old lines taken from the text), or apply or unapply
    all differences (DiffModel::applyAllDifferences). *)
Inductive work := EditText (e : edit_op) | ApplyEverything (b : bool).
Fixpoint run_work (qhash : str -> N) (m : dmodel) (T : list str) (ws : list work) : res (dmodel * list str) :=
  match ws with
  | [] => Ok (m, T)
  | EditText e :: ws' =>
      do r <- lines_changed qhash m (e_old T e) (e_new e) (1 + Z.of_nat (e_pos e));
      run_work qhash (fst (fst r)) (edited T e) ws'
  | ApplyEverything b :: ws' => do m' <- apply_all m b; run_work qhash m' T ws'
  end.
(** Edits happen while everything is applied ([applied]), to the text T; sizes as in C32. *)
Fixpoint work_fits (S T : list str) (applied : bool) (ws : list work) : Prop :=
  match ws with
  | [] => True
  | EditText e :: ws' => applied = true /\ edits_fit S T [e] /\ work_fits S (edited T e) applied ws'
  | ApplyEverything b :: ws' => work_fits S T b ws'
  end.
(** The text with everything applied, and whether everything is applied, at the end. *)
Fixpoint work_ends (T : list str) (applied : bool) (ws : list work) : list str * bool :=
  match ws with
  | [] => (T, applied)
  | EditText e :: ws' => work_ends (edited T e) applied ws'
  | ApplyEverything b :: ws' => work_ends T b ws'
  end.
