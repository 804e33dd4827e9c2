(** Specification: Perforce diffs as documents, with hunks in unified, context or normal form. *)
From Coq Require Import String.
From Verif Require Import Base QtStr Diff SpecPatch SpecParse SpecUnified SpecNormal SpecContext.
Local Open Scope Z_scope.

(** One file: lines before its header, the two sides as the header prints them, and its hunks ([A] is [uhunk], [chunk] or
    [ncmd]). *)
Record pfile (A : Type) := mk_pf { pf_before : list str; pf_old : str; pf_new : str; pf_body : list A }.
Arguments mk_pf {A}. Arguments pf_before {A}. Arguments pf_old {A}. Arguments pf_new {A}. Arguments pf_body {A}.
Record pdoc (A : Type) := mk_pd { pd_files : list (pfile A); pd_after : list str }.
Arguments mk_pd {A}. Arguments pd_files {A}. Arguments pd_after {A}.

(** * Printing *)
(** ==== old side - new side ==== *)
Definition pheader {A} (f : pfile A) : str := lit "==== " ++ pf_old f ++ lit " - " ++ pf_new f ++ lit " ====" ++ [NL].
Definition pfile_text {A} (text : A -> list str) (f : pfile A) : list str :=
  pf_before f ++ [pheader f] ++ concat (map text (pf_body f)).
Definition pdoc_lines {A} (text : A -> list str) (d : pdoc A) : list str :=
  concat (map (pfile_text text) (pd_files d)) ++ pd_after d.
Definition pdoc_text {A} (text : A -> list str) (d : pdoc A) : str := concat (pdoc_lines text d).

(** * Well-formed documents *)
(** A line around the files. *)
Record pbetween (l : str) : Prop := {
  pb_line : exists t, l = t ++ [NL] /\ ~ In NL t;
  pb_header : ~ begins "==== " l; pb_marker : ~ no_newline_marker l }.
Definition all_digits (s : str) : Prop := forallb is_digit s = true.
(** The first dash between blanks is the one between the sides. *)
Record pfile_ok {A} (ok : A -> Prop) (changing : list A -> Prop) (f : pfile A) : Prop := {
  pf_before_ok : Forall pbetween (pf_before f);
  pf_old_ok : ~ In NL (pf_old f) /\ (forall u v, pf_old f ++ lit " -" <> u ++ lit " - " ++ v);
  pf_new_ok : ~ In NL (pf_new f);
  pf_body_ok : Forall ok (pf_body f); pf_changing : changing (pf_body f) }.
Record pdoc_ok {A} (ok : A -> Prop) (changing : list A -> Prop) (d : pdoc A) : Prop := {
  pd_files_ok : Forall (pfile_ok ok changing) (pd_files d); pd_some : pd_files d <> [];
  pd_after_ok : Forall pbetween (pd_after d);
  (* nothing before the first header tells another generator or format *)
  pd_quiet : forall p ps, pd_files d = p :: ps ->
    Forall (fun l => quiet l /\ ~ begins "Index: " l /\ ~ begins "@@" l /\ ~ begins "***************" l) (pf_before p);
  pd_resumes : forall p ps, pd_files d = p :: ps ->
    Forall (fun ls => forall l ls', ls = l :: ls' -> resumes l) (map pf_before ps ++ [pd_after d]) }.
(** The hunks of a file change something. *)
Definition changing_hunks (us : list uhunk) : Prop := Exists (fun h => Exists changes (uh_segs h)) us.
Definition nonempty {A} (l : list A) : Prop := l <> [].

(** * What the models have to be *)
(** A side names a file by its name, a number sign and a revision (the old side) or a revision or nothing (the new side);
    of a side of any other form no name is read ([perforce_name] in SpecParse.v). *)
Definition pfile_is {A} (is : A -> hunk * list difference -> Prop) (f : pfile A) (m : dmodel) : Prop :=
  (exists n1 n2, perforce_name true (pf_old f) n1 /\ perforce_name false (pf_new f) n2 /\ named m n1 n2 [] []) /\
  exists hs, contents m hs /\ Forall2 is (pf_body f) hs.

(** * The sides as p4 prints them *)
(** A file of the depot or of the disk: not empty, without number sign (p4 writes one as %23). *)
Definition file_name (n : str) : Prop := n <> [] /\ ~ In 35%N n.
Inductive side := Revision (n r : str)    (* p4 diff, p4 diff2 -q, p4 describe: //depot/a.c#3 *)
                | Working (n : str)       (* p4 diff, the new side: /home/me/a.c *)
                | Typed (n r t : str).    (* p4 diff2: //depot/a.c#3 (text) *)
Definition printed_side (x : side) : str :=
  match x with
  | Revision n r => n ++ lit "#" ++ r
  | Working n => n
  | Typed n r t => n ++ lit "#" ++ r ++ lit " (" ++ t ++ lit ")"
  end.
Definition side_ok (x : side) : Prop :=
  match x with
  | Revision n r | Typed n r _ => file_name n /\ r <> [] /\ all_digits r
  | Working n => file_name n
  end.
Definition side_name (x : side) : str := match x with Revision n _ | Working n | Typed n _ _ => n end.
(** What is read of it. *)
Definition side_read (x : side) : str := match x with Revision n _ => n | _ => [] end.
