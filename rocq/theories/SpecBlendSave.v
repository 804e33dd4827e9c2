(** Specification of saving after a diff has been opened together with its file. *)
From Verif Require Import Base SpecUnified SpecWorkflow SpecHistory SpecList.

(** The view when the files of a diff have just been opened: every difference is applied or every difference is not, and none
    of them has been saved. *)
Definition blended_files (ps : list upatch) (b rw : bool) : view :=
  mk_view (map (fun p => (repeat b (all_changes (up_hunks p)), repeat false (all_changes (up_hunks p)))) ps) 0 0 rw.
(** With one file open, the operation in the view v writes it: it saves, the save can be carried out, and something is unsaved. *)
Definition writes_file (v : view) (o : lop) : bool :=
  match o with
  | LSave e => save_succeeds e && unsaved_flags (now_of v 0, saved_of v 0)
  | LSaveAll envs => save_succeeds (envs 0%nat) && unsaved_flags (now_of v 0, saved_of v 0)
  | _ => false
  end.
(** One of the operations, from the view v on, does. *)
Fixpoint saves_something (v : view) (ops : list lop) : bool :=
  match ops with
  | [] => false
  | o :: ops' => writes_file v o || match vstep v o with Some w => saves_something w ops' | None => false end
  end.
