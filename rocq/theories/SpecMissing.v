(** Specification: normal diffs of files without a final newline. After the last line of a file that does not
    end in a newline diff writes a marker line. *)
From Coq Require Import String.
From Verif Require Import Base QtStr Diff SpecPatch SpecParse SpecUnified SpecNormal.
Local Open Scope Z_scope.

(** * Printing *)
(** The lines of one side of a command, the marker line [k] after them if the side has no final newline. *)
Definition side_text (k : str) (c : chr) (ts : list str) (missing : bool) : list str :=
  map (cmd_line c) ts ++ (if missing then [k] else []).
(** The last command of the diff: only there can be markers, one for each file. *)
Definition last_cmd_text (k : str) (c : ncmd) (old_missing new_missing : bool) : list str :=
  match c with
  | NAdd n m a => (number n ++ lit "a" ++ range_text m (count a) ++ [NL]) :: side_text k 62%N a new_missing
  | NDel n m r => (range_text n (count r) ++ lit "d" ++ number m ++ [NL]) :: side_text k 60%N r old_missing
  | NChg n m r a => (range_text n (count r) ++ lit "c" ++ range_text m (count a) ++ [NL]) ::
                    side_text k 60%N r old_missing ++ [lit "---" ++ [NL]] ++ side_text k 62%N a new_missing
  end.
(** * What is left of it *)
(** The marked line itself is not in the difference; and when the old side of a change is marked, none of the
    new lines is. *)
Definition kept_old (c : ncmd) (old_missing : bool) : list str :=
  if old_missing then removelast (old_lines c) else old_lines c.
Definition kept_new (c : ncmd) (old_missing new_missing : bool) : list str :=
  if old_missing then [] else if new_missing then removelast (new_lines c) else new_lines c.
Definition cmd_kept (c : ncmd) (old_missing new_missing : bool) (p : hunk * list difference) : Prop :=
  h_src (fst p) = old_number c /\ h_dst (fst p) = new_number c /\ h_type (fst p) = HNormal /\
  exists d, snd p = [d] /\ d_type d = cmd_type c /\ d_src d = old_number c /\ d_dst d = new_number c /\
    lines_of (d_slines d) = kept_old c old_missing /\ lines_of (d_dlines d) = kept_new c old_missing new_missing.

(** * Context diffs *)
From Verif Require Import SpecContext.
(** The last hunk of a file: a marker after the lines of each side that has no final newline. *)
Definition last_chunk_text (k : str) (h : chunk) (old_missing new_missing : bool) : list str :=
  [lit "***************" ++ (match ch_function h with [] => [] | f => SP :: f end) ++ [NL];
   lit "*** " ++ lines_text (ch_a h) (src_count (ch_segs h)) ++ lit " ****" ++ [NL]] ++
  (old_text (ch_segs h) ++ (if old_missing then [k] else [])) ++
  [lit "--- " ++ lines_text (ch_b h) (dst_count (ch_segs h)) ++ lit " ----" ++ [NL]] ++
  (new_text (ch_segs h) ++ (if new_missing then [k] else [])).
Fixpoint chunks_text (k : str) (us : list chunk) (old_missing new_missing : bool) : list str :=
  match us with
  | [] => []
  | [h] => last_chunk_text k h old_missing new_missing
  | h :: us => chunk_text h ++ chunks_text k us old_missing new_missing
  end.
(** A file, and which of its two versions have a marker. *)
Record mpatch := mk_mp { mp_patch : cpatch; mp_old : bool; mp_new : bool }.
Record mdoc := mk_md { md_files : list mpatch; md_after : list str }.
Definition mpatch_text (k : str) (p : mpatch) : list str :=
  let c := mp_patch p in
  cp_before c ++
  [cheading "*** " (cp_old c) (cp_stamp1 c) (cp_rev1 c); cheading "--- " (cp_new c) (cp_stamp2 c) (cp_rev2 c)] ++
  chunks_text k (cp_chunks c) (mp_old p) (mp_new p).
Definition mdoc_lines (k : str) (d : mdoc) : list str := concat (map (mpatch_text k) (md_files d)) ++ md_after d.
Definition mdoc_text (k : str) (d : mdoc) : str := concat (mdoc_lines k d).
(** A marker stands after printed lines. When only the new side is marked, its last line is not a common
    line that is printed on the old side as well (that line would have a marker there too). *)
Definition common (s : seg) : Prop := match s with Ctx _ => True | Chg _ _ => False end.
Definition marks_ok (p : mpatch) : Prop :=
  forall us h, cp_chunks (mp_patch p) = us ++ [h] ->
    (mp_old p = true -> existsb removes (ch_segs h) = true) /\ (mp_new p = true -> existsb adds (ch_segs h) = true) /\
    (mp_old p = false -> mp_new p = true ->
       exists ss s, ch_segs h = ss ++ [s] /\ dst_lines s <> [] /\ (common s -> existsb removes (ch_segs h) = false)).
Record mdoc_ok (cvs : bool) (d : mdoc) : Prop := {
  mo_doc : cdoc_ok cvs (mk_cd (map mp_patch (md_files d)) (md_after d)); mo_marks : Forall marks_ok (md_files d) }.
(** What is left of the last hunk when only its new side is marked: the last new line is gone. *)
Definition last_cut (s : seg) (ds : list difference) : Prop :=
  match s with
  | Ctx ls => match removelast ls with [] => ds = [] | ls' => exists d, ds = [d] /\ seg_is (Ctx ls') d end
  | Chg [] a => match removelast a with [] => ds = [] | a' => exists d, ds = [d] /\ seg_is (Chg [] a') d end
  | Chg r a => exists d, ds = [d] /\ d_type d = Change /\ lines_of (d_slines d) = r /\ lines_of (d_dlines d) = removelast a
  end.
Definition chunk_cut (u : chunk) (p : hunk * list difference) : Prop :=
  h_src (fst p) = ch_a u /\ h_dst (fst p) = ch_b u /\ h_function (fst p) = ch_function u /\ h_type (fst p) = HNormal /\
  contiguous (ch_a u) (ch_b u) (snd p) /\ Forall pristine (snd p) /\
  exists ss s ds cut, ch_segs u = ss ++ [s] /\ snd p = ds ++ cut /\ Forall2 seg_is ss ds /\ last_cut s cut.
(** The hunks of a file: all of them; or, when the old side of the last one is marked, all but that one; or,
    when only its new side is marked, all of them, the last one without its last new line. *)
Definition hunks_left (p : mpatch) (hs : list (hunk * list difference)) : Prop :=
  if mp_old p then Forall2 chunk_is (removelast (cp_chunks (mp_patch p))) hs
  else if mp_new p then exists us u hs' q, cp_chunks (mp_patch p) = us ++ [u] /\ hs = hs' ++ [q] /\ Forall2 chunk_is us hs' /\ chunk_cut u q
  else Forall2 chunk_is (cp_chunks (mp_patch p)) hs.
(** The model of the file; it is not in the list if no difference is left. *)
Definition marked_is (cvs : bool) (p : mpatch) (ms : list dmodel) : Prop :=
  exists m hs, contents m hs /\ hunks_left p hs /\
    (let c := mp_patch p in
     named m (unescape_path (cp_old c)) (unescape_path (cp_new c))
       (if cvs then match cp_rev1 c with Some r => r | None => [] end else cp_stamp1 c)
       (if cvs then match cp_rev2 c with Some r => TAB :: r | None => [] end else cp_stamp2 c)) /\
    ms = match dm_diffs m with [] => [] | _ => [m] end.
