(** Specification: unified diffs with anything between the files. *)
From Coq Require Import String.
From Verif Require Import Base QtStr Diff SpecPatch SpecParse SpecUnified.
Local Open Scope Z_scope.

(** The lines after each file: those before the next one, and those at the end. *)
Definition gaps (d : udoc) : list (list str) :=
  match ud_files d with [] => [] | _ :: ps => map up_before ps ++ [ud_after d] end.
(** A document as in C16, but the lines after a file may begin with anything that is not the header of another hunk. *)
Record loose_ok (d : udoc) : Prop := {
  lo_files : Forall patch_ok (ud_files d);
  lo_some : ud_files d <> [];
  lo_after : Forall between_line (ud_after d);
  lo_quiet : forall p ps, ud_files d = p :: ps -> Forall quiet (up_before p);
  lo_no_hunk : Forall (fun g => forall l ls, g = l :: ls -> ~ begins "@@ -" l) (gaps d);
  lo_stamp : forall p ps, ud_files d = p :: ps -> up_stamp1 p = [] ->
    Forall (fun l => ~ begins "Index: " l) (concat (map up_before (ud_files d)) ++ ud_after d) }.
(** After some file there is something that does not begin as what diff, CVS, Subversion, git and mail programs put there. *)
Definition strange_gap (g : list str) : Prop := exists l ls, g = l :: ls /\ ~ resumes l.
(** A file without the lines before it. *)
Definition with_no_before (p : upatch) : upatch :=
  mk_up [] (up_old p) (up_new p) (up_stamp1 p) (up_stamp2 p) (up_more1 p) (up_more2 p) (up_hunks p).
