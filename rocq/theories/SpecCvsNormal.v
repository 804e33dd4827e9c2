(** Specification: normal diffs as CVS prints them. *)
From Coq Require Import String.
From Verif Require Import Base QtStr Diff SpecParse SpecUnified SpecNormal.
Local Open Scope Z_scope.

(** A file: other lines, the line with its name, the lines CVS prints between that and the commands (a rule, the file of the
    repository, the revision, the command line of diff), the commands. *)
Record cfile := mk_cf { cf_before : list str; cf_name : str; cf_between : list str; cf_cmds : list ncmd }.
Definition index_line (name : str) : str := lit "Index: " ++ name ++ [NL].
Definition cfile_text (f : cfile) : list str := cf_before f ++ [index_line (cf_name f)] ++ cf_between f ++ concat (map cmd_text (cf_cmds f)).
Definition cdoc_lines (fs : list cfile) (after : list str) : list str := concat (map cfile_text fs) ++ after.

(** A line that is neither part of the commands nor the beginning of a file. *)
Record between (l : str) : Prop := {
  bt_line : exists t, l = t ++ [NL] /\ ~ In NL t;
  bt_quiet : quiet l; bt_begins : Forall (fun p => ~ begins p l) ["Index: "; "==== "; "--- "; "< "; "> "; "\ No newline"]%string }.
Record cfile_ok (f : cfile) : Prop := {
  co_before : Forall between (cf_before f); co_name : ~ In NL (cf_name f); co_between : Forall between (cf_between f);
  co_commands : Forall cmd_ok (cf_cmds f); co_some : cf_cmds f <> [] }.
(** The model of a file: its name on both sides, one difference for each command. *)
Definition cfile_is (f : cfile) (m : dmodel) : Prop := named m (cf_name f) (cf_name f) [] [] /\ commands_are (cf_cmds f) m.
(** The commands follow the name at once. *)
Definition bare (f : cfile) : bool := match cf_between f with [] => true | _ => false end.
