(** Model of ModelListPrivate::blendFile (modellist_p.cpp 278-500). *)
From Verif Require Import Base QtStr Diff Parser.
Local Open Scope Z_scope.

(** modellist_p.cpp 316-322: lines go into the new difference while the source line number is below
    [limit] and lines are left. *)
Fixpoint blend_while (limit src dst : Z) (lines : list str) (d : difference)
  : Z * Z * list str * difference :=
  match lines with
  | [] => (src, dst, [], d)
  | l :: ls =>
      if Z.ltb src limit
      then blend_while limit (src + 1) (dst + 1) ls (add_destination_line l (add_source_line l d))
      else (src, dst, lines, d)
  end.
(** modellist_p.cpp 304-335: one round of the loop over the hunks. A hunk that is added before the current
    one holds one new difference, which is not listed in the model. Advancing the line iterator past the
    end and clamping it (328-331) is [skipn]. The store gets one more object for a new difference. *)
Fixpoint blend_hunks (st : list difference) (src dst : Z) (lines : list str) (hs : list hunk)
  : res (list hunk * list difference * Z * Z * list str) :=
  match hs with
  | [] => Ok ([], st, src, dst, lines)
  | h :: hs' =>
      let '(before, st, src, dst, lines) :=
        if Z.ltb src (h_src h) then
          let '(src', dst', lines, d) := blend_while (h_src h) src dst lines (new_diff src dst Unchanged) in
          ([mk_hunk src dst [] HAddedByBlend [length st]], st ++ [d], src', dst', lines)
        else ([], st, src, dst, lines) in
      do ds <- deref_all st (h_diffs h);
      let size := sum_slc ds in
      do r <- blend_hunks st (src + size) (dst + sum_dlc ds) (skipn (Z.to_nat size) lines) hs';
      let '(out, st, src, dst, lines) := r in
      Ok (before ++ h :: out, st, src, dst, lines)
  end.
(** modellist_p.cpp 346-350: all lines that are left. *)
Fixpoint blend_rest (lines : list str) (d : difference) : difference :=
  match lines with
  | [] => d
  | l :: ls => blend_rest ls (add_destination_line l (add_source_line l d))
  end.
(** modellist_p.cpp 285-351; what follows (495-497: the selection) is in ModelList.v. *)
Definition blend_file (m : dmodel) (text : str) : res dmodel :=
  let m := with_blended m true in
  do r <- blend_hunks (dm_store m) 1 1 (split_lines text) (dm_hunks m);
  let '(hs, st, src, dst, lines) := r in
  let m := with_contents m hs (dm_diffs m) st in
  match lines with
  | [] => Ok m
  | _ =>
      let '(m, i) := alloc_diff m (blend_rest lines (new_diff src dst Unchanged)) in
      Ok (add_hunk m (mk_hunk src dst [] HAddedByBlend [i]))
  end.
