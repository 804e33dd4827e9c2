(** Specification: context diffs as documents. What diff -c and cvs diff -c write. *)
From Coq Require Import String Sorted.
From Verif Require Import Base QtStr Diff SpecPatch SpecParse SpecUnified.
Local Open Scope Z_scope.

(** A hunk: first line in each file, function, runs of common lines and changes ([SpecUnified.seg]); here
    the lines are without their newline. *)
Record chunk := mk_ch { ch_a : Z; ch_b : Z; ch_function : str; ch_segs : list seg }.
(** A file: lines before its header, names as printed, time stamps (empty: none), revisions (CVS), hunks. *)
Record cpatch := mk_cp {
  cp_before : list str; cp_old : str; cp_new : str; cp_stamp1 : str; cp_stamp2 : str;
  cp_rev1 : option str; cp_rev2 : option str; cp_chunks : list chunk }.
Record cdoc := mk_cd { cd_files : list cpatch; cd_after : list str }.

(** * Printing *)
Definition marked (mark : string) (ls : list str) : list str := map (fun t => lit mark ++ t ++ [NL]) ls.
(** A removal is marked with a dash, an addition with a plus sign, both sides of a change with !. *)
Definition old_side (s : seg) : list str :=
  match s with Ctx ls => marked "  " ls | Chg r [] => marked "- " r | Chg r _ => marked "! " r end.
Definition new_side (s : seg) : list str :=
  match s with Ctx ls => marked "  " ls | Chg [] a => marked "+ " a | Chg _ a => marked "! " a end.
Definition removes (s : seg) : bool := match s with Chg (_ :: _) _ => true | _ => false end.
Definition adds (s : seg) : bool := match s with Chg _ (_ :: _) => true | _ => false end.
(** The lines of a side are left out if it has only common lines. *)
Definition old_text (ss : list seg) : list str := if existsb removes ss then concat (map old_side ss) else [].
Definition new_text (ss : list seg) : list str := if existsb adds ss then concat (map new_side ss) else [].
Definition lines_text (first n : Z) : str := number first ++ lit "," ++ number (first + n - 1).
Definition chunk_text (h : chunk) : list str :=
  [lit "***************" ++ (match ch_function h with [] => [] | f => SP :: f end) ++ [NL];
   lit "*** " ++ lines_text (ch_a h) (src_count (ch_segs h)) ++ lit " ****" ++ [NL]] ++ old_text (ch_segs h) ++
  [lit "--- " ++ lines_text (ch_b h) (dst_count (ch_segs h)) ++ lit " ----" ++ [NL]] ++ new_text (ch_segs h).
Definition cheading (mark : string) (name stamp : str) (rev : option str) : str := heading_text (lit mark) name stamp rev.
Definition cpatch_text (p : cpatch) : list str :=
  cp_before p ++
  [cheading "*** " (cp_old p) (cp_stamp1 p) (cp_rev1 p); cheading "--- " (cp_new p) (cp_stamp2 p) (cp_rev2 p)] ++
  concat (map chunk_text (cp_chunks p)).
Definition cdoc_lines (d : cdoc) : list str := concat (map cpatch_text (cd_files d)) ++ cd_after d.
Definition cdoc_text (d : cdoc) : str := concat (cdoc_lines d).

(** * Well-formed documents *)
Definition line_text (t : str) : Prop := ~ In NL t /\ count t < 65535.
Definition cseg_ok (s : seg) : Prop :=
  Forall line_text (src_lines s) /\ Forall line_text (dst_lines s) /\ ~ (src_lines s = [] /\ dst_lines s = []).
(** Common lines and changes alternate. *)
Definition alternate (s1 s2 : seg) : Prop :=
  match s1, s2 with Ctx _, Chg _ _ => True | Chg _ _, Ctx _ => True | _, _ => False end.
(** The range of a side is printed as "first,last": the side has two lines or more. *)
Record chunk_ok (h : chunk) : Prop := {
  co_a : 1 <= ch_a h /\ ch_a h + src_count (ch_segs h) - 1 <= 2147483647;
  co_b : 1 <= ch_b h /\ ch_b h + dst_count (ch_segs h) - 1 <= 2147483647;
  co_two : 2 <= src_count (ch_segs h) /\ 2 <= dst_count (ch_segs h);
  co_function : ~ In NL (ch_function h);
  co_segs : Forall cseg_ok (ch_segs h); co_alternate : Sorted alternate (ch_segs h);
  co_change : Exists changes (ch_segs h) }.
(** A line between files, or before the first or after the last. *)
Record cbetween (l : str) : Prop := {
  cb_line : exists t, l = t ++ [NL] /\ ~ In NL t;
  cb_header : ~ begins "*** " l; cb_perforce : ~ begins "==== " l; cb_marker : ~ no_newline_marker l }.
(** With [cvs] the header has both time stamps and the revision of the old file; without it, no revisions. *)
Record cpatch_ok (cvs : bool) (p : cpatch) : Prop := {
  cp_before_ok : Forall cbetween (cp_before p);
  cp_old_ok : name_ok (cp_old p); cp_new_ok : name_ok (cp_new p);
  cp_stamp1_ok : stamp_ok (cp_stamp1 p) (cp_rev1 p); cp_stamp2_ok : stamp_ok (cp_stamp2 p) (cp_rev2 p);
  cp_dialect : if cvs then cp_stamp1 p <> [] /\ cp_stamp2 p <> [] /\ cp_rev1 p <> None
               else cp_rev1 p = None /\ cp_rev2 p = None;
  cp_chunks_ok : Forall chunk_ok (cp_chunks p); cp_some : cp_chunks p <> [] }.
Record cdoc_ok (cvs : bool) (d : cdoc) : Prop := {
  cd_files_ok : Forall (cpatch_ok cvs) (cd_files d); cd_some : cd_files d <> [];
  cd_after_ok : Forall cbetween (cd_after d);
  cd_quiet : forall p ps, cd_files d = p :: ps -> Forall (fun l => quiet l /\ ~ begins "--- " l) (cp_before p);
  cd_resumes : forall p ps, cd_files d = p :: ps ->
    Forall (fun ls => forall l ls', ls = l :: ls' -> resumes l) (map cp_before ps ++ [cd_after d]);
  (* an Index line somewhere makes it a CVS diff *)
  cd_dialect : if cvs then Exists (begins "Index: ") (concat (map cp_before (cd_files d)) ++ cd_after d)
               else Forall (fun l => ~ begins "Index: " l) (concat (map cp_before (cd_files d)) ++ cd_after d) }.

(** * What the models have to be *)
Definition chunk_is (u : chunk) (p : hunk * list difference) : Prop :=
  h_src (fst p) = ch_a u /\ h_dst (fst p) = ch_b u /\ h_function (fst p) = ch_function u /\ h_type (fst p) = HNormal /\
  Forall2 seg_is (ch_segs u) (snd p) /\ contiguous (ch_a u) (ch_b u) (snd p) /\ Forall pristine (snd p).
Definition chunks_are (p : cpatch) (m : dmodel) : Prop := exists hs, contents m hs /\ Forall2 chunk_is (cp_chunks p) hs.
Definition cpatch_is (p : cpatch) (m : dmodel) : Prop :=
  named m (unescape_path (cp_old p)) (unescape_path (cp_new p)) (cp_stamp1 p) (cp_stamp2 p) /\ chunks_are p m.
(** What is read of a CVS diff: the time stamp of the old file is its revision, that of the new file is
    empty, or a TAB and its revision. *)
Definition cvs_patch_is (p : cpatch) (m : dmodel) : Prop :=
  named m (unescape_path (cp_old p)) (unescape_path (cp_new p))
    (match cp_rev1 p with Some r => r | None => [] end) (match cp_rev2 p with Some r => TAB :: r | None => [] end) /\ chunks_are p m.
