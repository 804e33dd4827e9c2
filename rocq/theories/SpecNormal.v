(** Specification: normal diffs as documents. What diff without a format option writes. *)
From Coq Require Import String.
From Verif Require Import Base QtStr Diff SpecPatch SpecParse SpecUnified.
Local Open Scope Z_scope.

(** A command: lines added after line n of the old file, as lines m.. of the new one; lines n.. removed
    (line m of the new file comes before); lines n.. of the old file replaced by lines m.. of the new one.
    The lines are without their newline. *)
Inductive ncmd :=
| NAdd (n m : Z) (added : list str)
| NDel (n m : Z) (removed : list str)
| NChg (n m : Z) (removed added : list str).
Definition old_lines (c : ncmd) : list str := match c with NAdd _ _ _ => [] | NDel _ _ r => r | NChg _ _ r _ => r end.
Definition new_lines (c : ncmd) : list str := match c with NAdd _ _ a => a | NDel _ _ _ => [] | NChg _ _ _ a => a end.
Definition old_number (c : ncmd) : Z := match c with NAdd n _ _ | NDel n _ _ | NChg n _ _ _ => n end.
Definition new_number (c : ncmd) : Z := match c with NAdd _ m _ | NDel _ m _ | NChg _ m _ _ => m end.
Definition cmd_type (c : ncmd) : dtype := match c with NAdd _ _ _ => Insert | NDel _ _ _ => Delete | NChg _ _ _ _ => Change end.

(** * Printing *)
(** One line: its number; several: first and last. *)
Definition range_text (first n : Z) : str :=
  if Z.eqb n 1 then number first else number first ++ lit "," ++ number (first + n - 1).
Definition cmd_line (c : chr) (t : str) : str := c :: SP :: t ++ [NL].
Definition cmd_text (c : ncmd) : list str :=
  match c with
  | NAdd n m a => (number n ++ lit "a" ++ range_text m (count a) ++ [NL]) :: map (cmd_line 62%N) a   (* > *)
  | NDel n m r => (range_text n (count r) ++ lit "d" ++ number m ++ [NL]) :: map (cmd_line 60%N) r   (* < *)
  | NChg n m r a => (range_text n (count r) ++ lit "c" ++ range_text m (count a) ++ [NL]) ::
                    map (cmd_line 60%N) r ++ [lit "---" ++ [NL]] ++ map (cmd_line 62%N) a
  end.
(** A diff of several files (diff -r): other lines, the command line of diff, the commands. *)
Record nfile := mk_nf { nf_before : list str; nf_options : list str; nf_old : str; nf_new : str; nf_cmds : list ncmd }.
Definition nheader_text (f : nfile) : str :=
  lit "diff " ++ concat (map (fun o => o ++ lit " ") (nf_options f)) ++ nf_old f ++ lit " " ++ nf_new f ++ [NL].
Definition nfile_text (f : nfile) : list str := nf_before f ++ [nheader_text f] ++ concat (map cmd_text (nf_cmds f)).
Definition ndoc_lines (fs : list nfile) (after : list str) : list str := concat (map nfile_text fs) ++ after.

(** * Well-formed documents *)
Definition small (z : Z) : Prop := 0 <= z <= 2147483647.
Record cmd_ok (c : ncmd) : Prop := {
  cm_numbers : small (old_number c) /\ small (new_number c);
  cm_lines : Forall (fun t => ~ In NL t) (old_lines c ++ new_lines c);
  cm_old : cmd_type c <> Insert -> old_lines c <> [];
  cm_new : cmd_type c <> Delete -> new_lines c <> [] }.
(** An option of diff: one or two dashes, then letters, digits, = and double quotes. *)
Definition option_char (c : chr) : Prop :=
  (48 <= c <= 57)%N \/ (97 <= c <= 122)%N \/ (65 <= c <= 90)%N \/ c = 61%N \/ c = 34%N.
Definition diff_option (o : str) : Prop :=
  exists x, x <> [] /\ Forall option_char x /\ (o = lit "-" ++ x \/ o = lit "--" ++ x).
Definition plain_name (s : str) : Prop := s <> [] /\ ~ In SP s /\ ~ In NL s.
(** A line around the files, such as "Only in ...". *)
Record aside (l : str) : Prop := {
  as_line : exists t, l = t ++ [NL] /\ ~ In NL t;
  as_quiet : quiet l; as_begins : Forall (fun p => ~ begins p l) ["diff "; "Index: "; "==== "; "--- "; "< "; "> "; "\ No newline"]%string }.
Record nfile_ok (f : nfile) : Prop := {
  nf_asides : Forall aside (nf_before f); nf_opts : Forall diff_option (nf_options f);
  nf_names : plain_name (nf_old f) /\ plain_name (nf_new f); nf_dash : ~ begins "-" (nf_old f);
  nf_commands : Forall cmd_ok (nf_cmds f); nf_some : nf_cmds f <> [] }.

(** * What the models have to be *)
(** One hunk and one difference for each command, with the printed numbers. *)
Definition cmd_is (c : ncmd) (p : hunk * list difference) : Prop :=
  h_src (fst p) = old_number c /\ h_dst (fst p) = new_number c /\ h_function (fst p) = [] /\ h_type (fst p) = HNormal /\
  exists d, snd p = [d] /\ d_type d = cmd_type c /\ d_src d = old_number c /\ d_dst d = new_number c /\ d_track d = old_number c /\
    lines_of (d_slines d) = old_lines c /\ lines_of (d_dlines d) = new_lines c /\ pristine d /\
    Forall (fun l => ds_markers l = []) (d_slines d ++ d_dlines d).
Definition commands_are (cs : list ncmd) (m : dmodel) : Prop := exists hs, contents m hs /\ Forall2 cmd_is cs hs.
Definition nfile_is (f : nfile) (m : dmodel) : Prop :=
  named m (unescape_path (nf_old f)) (unescape_path (nf_new f)) [] [] /\ commands_are (nf_cmds f) m.
