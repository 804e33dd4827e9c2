(** Model of destruction and copying of the public classes. *)
From Coq Require Import String.
From Verif Require Import Base Lev Diff.
Local Open Scope Z_scope.

(** Which objects (by address) exist. *)
Definition heap := nat -> bool.
(** The delete operator: deleting what does not exist (any more) is undefined. *)
Definition delete (h : heap) (a : nat) : res heap :=
  if h a then Ok (fun b => if Nat.eqb b a then false else h b) else UB "delete of an object that does not exist".
(** qDeleteAll. *)
Fixpoint delete_list (h : heap) (l : list nat) : res heap :=
  match l with [] => Ok h | a :: l' => do h <- delete h a; delete_list h l' end.

(** diffmodel_p.h 67-73 ~DiffModelPrivate: the listed differences are deleted (qDeleteAll(differences)). The result tells
    which of the model's Difference objects are left. Simplifications: DiffHunk objects are values in this model (each is made
    by one new and put in one list), so that qDeleteAll(hunks) deletes each once; diffhunk.cpp 21: ~DiffHunk deletes no
    differences; the lines of a Difference (difference_p.h 46-50) are owned by it alone. *)
Definition destroy_model (m : dmodel) : res heap :=
  delete_list (fun i => Nat.ltb i (length (dm_store m))) (dm_diffs m).

(** A DifferenceString with its markers by address (differencestring_p.h 39-42). *)
Record string_object := mk_so { so_string : str; so_conflict : str; so_hash : N; so_markers : list nat }.
(** differencestring.cpp 26-30, differencestring_p.h 24: the copy has the same marker pointers. *)
Definition copy_string (s : string_object) : string_object :=
  mk_so (so_string s) (so_conflict s) (so_hash s) (so_markers s).
(** differencestring_p.h 47-50. *)
Definition destroy_string (h : heap) (s : string_object) : res heap := delete_list h (so_markers s).

(** A DiffModelList is a list of pointers; diffmodellist.h 31-34 copy, 35-38 destructor. *)
Definition copy_list (l : list nat) : list nat := l.
Definition destroy_list (h : heap) (l : list nat) : res heap := delete_list h l.

(** diffmodel.cpp 39-49 operator=, diffmodel_p.h 75-95: [a] is assigned from [b] (not from itself). Hunks, differences and the
    blended mark are not assigned. Simplification: the assigned selectedDifference is a pointer to an object of [b]'s store. *)
Definition assign_model (a b : dmodel) : dmodel :=
  mk_model (dm_source b) (dm_destination b) (dm_spath b) (dm_dpath b) (dm_sfile b) (dm_dfile b)
    (dm_sts b) (dm_dts b) (dm_srev b) (dm_drev b)
    (dm_hunks a) (dm_diffs a) (dm_store a) (dm_applied b) (dm_index b) (dm_sel b) (dm_blended a).
