(** Specification: context diffs with sides of no line or one line, as diff -c prints them. *)
From Coq Require Import String Sorted.
From Verif Require Import Base QtStr Diff SpecPatch SpecParse SpecUnified SpecContext.
Local Open Scope Z_scope.

(** * Printing *)
(** Two lines or more: first and last; one line: its number; no line: the number of the line before. *)
Definition any_range (first n : Z) : str := if n <=? 1 then number (first + n - 1) else lines_text first n.
Definition small_chunk_text (h : chunk) : list str :=
  [lit "***************" ++ (match ch_function h with [] => [] | f => SP :: f end) ++ [NL];
   lit "*** " ++ any_range (ch_a h) (src_count (ch_segs h)) ++ lit " ****" ++ [NL]] ++ old_text (ch_segs h) ++
  [lit "--- " ++ any_range (ch_b h) (dst_count (ch_segs h)) ++ lit " ----" ++ [NL]] ++ new_text (ch_segs h).
Definition small_patch_text (p : cpatch) : list str :=
  cp_before p ++
  [cheading "*** " (cp_old p) (cp_stamp1 p) (cp_rev1 p); cheading "--- " (cp_new p) (cp_stamp2 p) (cp_rev2 p)] ++
  concat (map small_chunk_text (cp_chunks p)).
Definition small_doc_lines (d : cdoc) : list str := concat (map small_patch_text (cd_files d)) ++ cd_after d.
Definition small_doc_text (d : cdoc) : str := concat (small_doc_lines d).

(** * Well-formed documents: as in [SpecContext], but sides of any size. *)
Record small_chunk_ok (h : chunk) : Prop := {
  sc_a : 1 <= ch_a h /\ ch_a h + src_count (ch_segs h) - 1 <= 2147483647;
  sc_b : 1 <= ch_b h /\ ch_b h + dst_count (ch_segs h) - 1 <= 2147483647;
  sc_function : ~ In NL (ch_function h);
  sc_segs : Forall cseg_ok (ch_segs h); sc_alternate : Sorted alternate (ch_segs h);
  sc_change : Exists changes (ch_segs h) }.
Record small_patch_ok (p : cpatch) : Prop := {
  sp_before : Forall cbetween (cp_before p);
  sp_old : name_ok (cp_old p); sp_new : name_ok (cp_new p);
  sp_stamp1 : stamp_ok (cp_stamp1 p) None; sp_stamp2 : stamp_ok (cp_stamp2 p) None;
  sp_revisions : cp_rev1 p = None /\ cp_rev2 p = None;
  sp_chunks : Forall small_chunk_ok (cp_chunks p); sp_some : cp_chunks p <> [] }.
Record small_doc_ok (d : cdoc) : Prop := {
  sd_files : Forall small_patch_ok (cd_files d); sd_some : cd_files d <> [];
  sd_after : Forall cbetween (cd_after d);
  sd_quiet : forall p ps, cd_files d = p :: ps -> Forall (fun l => quiet l /\ ~ begins "--- " l) (cp_before p);
  sd_resumes : forall p ps, cd_files d = p :: ps ->
    Forall (fun ls => forall l ls', ls = l :: ls' -> resumes l) (map cp_before ps ++ [cd_after d]);
  sd_dialect : Forall (fun l => ~ begins "Index: " l) (concat (map cp_before (cd_files d)) ++ cd_after d) }.

(** * What is read *)
(** A hunk with two lines or more on each side. *)
Definition readable (h : chunk) : bool := ((2 <=? src_count (ch_segs h)) && (2 <=? dst_count (ch_segs h)))%bool.
Definition shows_old (h : chunk) : bool := existsb removes (ch_segs h).
(** The hunks before the first one that is not readable, and the others. *)
Fixpoint hunks_read (us : list chunk) : list chunk :=
  match us with h :: us => if readable h then h :: hunks_read us else [] | [] => [] end.
Fixpoint hunks_lost (us : list chunk) : list chunk :=
  match us with h :: us' => if readable h then hunks_lost us' else us | [] => [] end.
(** The first lost hunk has at most one old line, and that line is printed: reading ends there. *)
Definition ends_silently (h : chunk) : bool := ((src_count (ch_segs h) <=? 1) && shows_old h)%bool.
(** Reading ends in this file: at such a hunk, or at a later one that prints old lines. *)
Definition ends_reading (us : list chunk) : bool :=
  match hunks_lost us with [] => false | h :: hs => (ends_silently h || existsb shows_old hs)%bool end.
Definition complains (us : list chunk) : bool :=
  match hunks_lost us with [] => false | h :: _ => negb (ends_silently h) end.
(** The files that are read, and if the diff is reported as malformed. *)
Fixpoint files_read (ps : list cpatch) : list cpatch :=
  match ps with p :: ps => p :: (if ends_reading (cp_chunks p) then [] else files_read ps) | [] => [] end.
Definition complaint (ps : list cpatch) : bool := existsb (fun p => complains (cp_chunks p)) (files_read ps).
(** The model of a file that is read; it is not in the list if no hunk of it is read. *)
Definition small_patch_is (p : cpatch) (ms : list dmodel) : Prop :=
  match hunks_read (cp_chunks p) with
  | [] => ms = []
  | us => exists m hs, ms = [m] /\ named m (unescape_path (cp_old p)) (unescape_path (cp_new p)) (cp_stamp1 p) (cp_stamp2 p) /\
            contents m hs /\ Forall2 chunk_is us hs
  end.
