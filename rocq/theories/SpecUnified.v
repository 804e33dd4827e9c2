(** Specification: unified diffs as documents. What GNU diff -u, git diff, cvs diff and svn diff write. *)
From Coq Require Import String Sorted Permutation.
From Verif Require Import Base QtStr Diff SpecPatch SpecParse.
Local Open Scope Z_scope.

(** A text line of one of the compared files, with its newline if it has one. *)
Definition text_line (l : str) : Prop :=
  exists t, ~ In NL t /\ (l = t \/ l = t ++ [NL]) /\ (N.of_nat (length l) < 65534)%N.
(** A hunk is a sequence of runs of common lines and of changes (removed lines, added lines). *)
Inductive seg := Ctx (ls : list str) | Chg (removed added : list str).
Definition src_lines (s : seg) : list str := match s with Ctx ls => ls | Chg r _ => r end.
Definition dst_lines (s : seg) : list str := match s with Ctx ls => ls | Chg _ a => a end.
Definition src_count (ss : list seg) : Z := count (concat (map src_lines ss)).
Definition dst_count (ss : list seg) : Z := count (concat (map dst_lines ss)).
(** [uh_a], [uh_b]: the first line of the hunk in each file (for an empty side: where it would be). *)
Record uhunk := mk_uh {
  uh_a : Z; uh_b : Z; uh_omit1 : bool; uh_omit2 : bool; uh_function : str; uh_segs : list seg }.
(** Lines that precede the file header, the names as printed, time stamps (empty: none), and what
    follows the time stamp. *)
Record upatch := mk_up {
  up_before : list str; up_old : str; up_new : str; up_stamp1 : str; up_stamp2 : str;
  up_more1 : option str; up_more2 : option str; up_hunks : list uhunk }.
(** A document: files and the lines after the last one. *)
Record udoc := mk_ud { ud_files : list upatch; ud_after : list str }.

(** * Printing *)
Definition no_newline_line : str := lit "\ No newline at end of file" ++ [NL].
Definition body_line (c : chr) (l : str) : list str :=
  if ends_with_chr NL l then [c :: l] else [c :: l ++ [NL]; no_newline_line].
Definition body_lines (c : chr) (ls : list str) : list str := concat (map (body_line c) ls).
Definition seg_text (s : seg) : list str :=
  match s with
  | Ctx ls => body_lines SP ls
  | Chg r a => body_lines 45%N r ++ body_lines 43%N a
  end.
(** An empty side prints the line before it; a count of 1 may be omitted. *)
Definition side_text (omit : bool) (start n : Z) : str :=
  if Z.eqb n 0 then number (start - 1) ++ lit ",0"
  else if (Z.eqb n 1 && omit)%bool then number start
  else number start ++ lit "," ++ number n.
Definition hunk_text (h : uhunk) : list str :=
  (lit "@@ -" ++ side_text (uh_omit1 h) (uh_a h) (src_count (uh_segs h)) ++
   lit " +" ++ side_text (uh_omit2 h) (uh_b h) (dst_count (uh_segs h)) ++ lit " @@" ++
   (match uh_function h with [] => [] | f => SP :: f end) ++ [NL]) :: concat (map seg_text (uh_segs h)).
Definition heading_text (mark : str) (name stamp : str) (more : option str) : str :=
  mark ++ name ++ (match stamp with
                   | [] => []
                   | _ => TAB :: stamp ++ match more with None => [] | Some x => TAB :: x end
                   end) ++ [NL].
Definition patch_text (p : upatch) : list str :=
  up_before p ++
  [heading_text (lit "--- ") (up_old p) (up_stamp1 p) (up_more1 p);
   heading_text (lit "+++ ") (up_new p) (up_stamp2 p) (up_more2 p)] ++
  concat (map hunk_text (up_hunks p)).
Definition doc_lines (d : udoc) : list str := concat (map patch_text (ud_files d)) ++ ud_after d.
Definition doc_text (d : udoc) : str := concat (doc_lines d).

(** * Well-formed documents *)
(** Runs are maximal: common lines are not followed by common lines, and a change by another one only if
    a diff cannot show them as one (added lines, then removed lines). *)
Definition may_follow (s1 s2 : seg) : Prop :=
  match s1, s2 with
  | Ctx _, Ctx _ => False
  | Chg _ a, Chg r _ => a <> [] /\ r <> []
  | _, _ => True
  end.
Definition seg_ok (s : seg) : Prop :=
  Forall text_line (src_lines s) /\ Forall text_line (dst_lines s) /\ ~ (src_lines s = [] /\ dst_lines s = []).
Definition fits_int (z : Z) : Prop := 1 <= z <= 2147483647.
Record hunk_ok (h : uhunk) : Prop := {
  ho_a : fits_int (uh_a h); ho_b : fits_int (uh_b h);
  ho_na : src_count (uh_segs h) <= 2147483647; ho_nb : dst_count (uh_segs h) <= 2147483647;
  ho_function : ~ In NL (uh_function h);
  ho_segs : Forall seg_ok (uh_segs h); ho_maximal : Sorted may_follow (uh_segs h) }.
Definition changes (s : seg) : Prop := match s with Ctx _ => False | Chg _ _ => True end.
Definition name_ok (s : str) : Prop := s <> [] /\ ~ In TAB s /\ ~ In NL s.
Definition stamp_ok (t : str) (more : option str) : Prop :=
  ~ In TAB t /\ ~ In NL t /\ match more with None => True | Some x => ~ In NL x end.
(** A line between files, or before the first or after the last: it is not taken for a file header, a
    Perforce header or a marker. *)
Definition begins (p : string) (l : str) : Prop := exists x, l = lit p ++ x.
Record between_line (l : str) : Prop := {
  bl_line : exists t, l = t ++ [NL] /\ ~ In NL t;
  bl_header : ~ begins "--- " l; bl_perforce : ~ begins "==== " l; bl_marker : ~ no_newline_marker l }.
(** A line that does not look like part of a normal, context, ed or RCS diff. *)
Definition quiet (l : str) : Prop :=
  ~ begins "*** " l /\
  (forall c x, l = c :: x -> is_digit c = false) /\
  (forall c d x, l = c :: d :: x -> In c (lit "acd") -> is_digit d = false).
(** How the lines right after a file may begin. *)
Definition resumes (l : str) : Prop := begins "diff " l \/ begins "Index: " l \/ begins "-- " l.
Record patch_ok (p : upatch) : Prop := {
  po_before : Forall between_line (up_before p);
  po_old : name_ok (up_old p); po_new : name_ok (up_new p);
  po_stamp1 : stamp_ok (up_stamp1 p) (up_more1 p); po_stamp2 : stamp_ok (up_stamp2 p) (up_more2 p);
  po_hunks : Forall hunk_ok (up_hunks p);
  po_change : Exists (fun h => Exists changes (uh_segs h)) (up_hunks p) }.
Record doc_ok (d : udoc) : Prop := {
  do_files : Forall patch_ok (ud_files d);
  do_some : ud_files d <> [];
  do_after : Forall between_line (ud_after d);
  do_quiet : forall p ps, ud_files d = p :: ps -> Forall quiet (up_before p);
  do_resumes : forall p ps, ud_files d = p :: ps ->
    Forall (fun ls => forall l ls', ls = l :: ls' -> resumes l) (map up_before ps ++ [ud_after d]);
  (* CVS and Subversion (an Index line somewhere): the first header has a time stamp *)
  do_stamp : forall p ps, ud_files d = p :: ps -> up_stamp1 p = [] ->
    Forall (fun l => ~ begins "Index: " l) (concat (map up_before (ud_files d)) ++ ud_after d) }.

(** * What the models have to be *)
Definition seg_is (s : seg) (d : difference) : Prop :=
  lines_of (d_slines d) = src_lines s /\ lines_of (d_dlines d) = dst_lines s /\
  d_type d = match s with
             | Ctx _ => Unchanged
             | Chg [] _ => Insert
             | Chg _ [] => Delete
             | Chg _ _ => Change
             end.
Definition hunk_is (u : uhunk) (p : hunk * list difference) : Prop :=
  h_src (fst p) = uh_a u /\ h_dst (fst p) = uh_b u /\ h_function (fst p) = uh_function u /\ h_type (fst p) = HNormal /\
  Forall2 seg_is (uh_segs u) (snd p) /\ contiguous (uh_a u) (uh_b u) (snd p) /\ Forall pristine (snd p).
Definition patch_is (p : upatch) (m : dmodel) : Prop :=
  named m (unescape_path (up_old p)) (unescape_path (up_new p)) (up_stamp1 p) (up_stamp2 p) /\
  exists hs, contents m hs /\ Forall2 hunk_is (up_hunks p) hs.

(** * Documents as recreateDiff() prints them *)
Definition terminated (l : str) : Prop := exists t, l = t ++ [NL].
Definition seg_terminated (s : seg) : Prop := Forall terminated (src_lines s) /\ Forall terminated (dst_lines s).
Record canonical_hunk (h : uhunk) : Prop := {
  ch_omit : uh_omit1 h = false /\ uh_omit2 h = false;
  ch_sides : src_count (uh_segs h) <> 0 /\ dst_count (uh_segs h) <> 0;
  ch_lines : Forall seg_terminated (uh_segs h) }.
(** No lines before the header, time stamps and nothing after them, names that need no other escaping,
    both counts printed and not zero, every line newline-terminated. *)
Record canonical (p : upatch) : Prop := {
  cp_before : up_before p = [];
  cp_stamps : up_stamp1 p <> [] /\ up_stamp2 p <> [];
  cp_more : up_more1 p = None /\ up_more2 p = None;
  cp_names : exists n1 n2, up_old p = escape_path n1 /\ up_new p = escape_path n2;
  cp_hunks : Forall canonical_hunk (up_hunks p) }.
(** What becomes of the other documents: the names are escaped anew, counts are printed, lines around the
    files are lost, and the number of an empty side has grown by one. *)
Definition rewritten_hunk (h : uhunk) : uhunk :=
  mk_uh (if Z.eqb (src_count (uh_segs h)) 0 then uh_a h + 1 else uh_a h)
        (if Z.eqb (dst_count (uh_segs h)) 0 then uh_b h + 1 else uh_b h) false false (uh_function h) (uh_segs h).
Definition rewritten (p : upatch) : upatch :=
  mk_up [] (escape_path (unescape_path (up_old p))) (escape_path (unescape_path (up_new p)))
    (up_stamp1 p) (up_stamp2 p) None None (map rewritten_hunk (up_hunks p)).
Record rewritable (p : upatch) : Prop := {
  rp_stamps : up_stamp1 p <> [] /\ up_stamp2 p <> [];
  rp_lines : Forall (fun h => Forall seg_terminated (uh_segs h)) (up_hunks p) }.
