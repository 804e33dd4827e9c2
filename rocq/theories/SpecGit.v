(** Specification: the diffs that git prints. They are unified diffs without time stamps, each file after a line "diff --git"; a
    name in which there is a blank is followed by a TAB (git's way to show where the name ends). *)
From Coq Require Import String.
From Verif Require Import Base QtStr Diff SpecPatch SpecParse SpecUnified SpecUnstamped.
Local Open Scope Z_scope.

Definition has_blank (n : str) : bool := existsb (N.eqb SP) n.
Definition git_head (mark : string) (n : str) : str := lit mark ++ n ++ (if has_blank n then [TAB] else []) ++ [NL].
Definition git_patch (p : upatch) : list str :=
  up_before p ++ [git_head "--- " (up_old p); git_head "+++ " (up_new p)] ++ concat (map hunk_text (up_hunks p)).
Definition git_lines (d : udoc) : list str := concat (map git_patch (ud_files d)) ++ ud_after d.
Definition git_text (d : udoc) : str := concat (git_lines d).
Record git_ok (d : udoc) : Prop := {
  go_files : Forall patch_ok (ud_files d);
  go_some : ud_files d <> [];
  go_after : Forall between_line (ud_after d);
  go_quiet : forall p ps, ud_files d = p :: ps -> Forall quiet (up_before p);
  go_stamps : Forall (fun p => up_stamp1 p = [] /\ up_stamp2 p = []) (ud_files d);
  go_before : Forall (fun p => exists l ls, up_before p = l :: ls /\ begins "diff " l) (ud_files d);
  go_resumes : forall l ls, ud_after d = l :: ls -> resumes l;
  go_index : Forall (fun l => ~ begins "Index: " l) (concat (map up_before (ud_files d)) ++ ud_after d) }.
(** A file whose old name has a blank is passed over; one of which only the new name has a blank ends reading. *)
Fixpoint git_left (ps : list upatch) : list upatch :=
  match ps with
  | [] => []
  | p :: ps => if has_blank (up_old p) then git_left ps
               else if has_blank (up_new p) then [] else p :: git_left ps
  end.
