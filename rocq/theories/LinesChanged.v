(** Model of DiffModel::linesChanged (diffmodel.cpp 485-640) and its helpers (diffmodel_p.cpp 46-78). *)
From Coq Require Import String.
From Verif Require Import Base QtStr Lev Diff.
Local Open Scope Z_scope.

(** The list of longest prefix elements not satisfying a test, and the rest (iterator searches
    499-508 and 509-519). *)
Fixpoint until {A} (stop : A -> bool) (l : list A) : list A * list A :=
  match l with
  | [] => ([], [])
  | x :: l' => if stop x then ([], l) else let '(a, b) := until stop l' in (x :: a, b)
  end.

(** 503-507: the test that ends the search for iterBegin. *)
Definition starts_range (edit : Z) (d : difference) : bool :=
  let line_after_last := tracking_end d in
  (Z.ltb edit line_after_last ||
   (Z.eqb line_after_last edit && (d_applied d || Z.eqb (d_track d) edit)))%bool.
(** 512-515: the test that ends the search for iterEnd. *)
Definition stops_range (edit_end : Z) (d : difference) : bool :=
  let first_line := d_track d in
  (Z.ltb edit_end first_line || (negb (d_applied d) && Z.eqb first_line edit_end))%bool.

(** 521-537: line numbers of the touched region; [rest] is the list from iterBegin on, [all] the whole
    list. *)
Definition region_numbers (edit : Z) (all rest : list difference) : Z * Z :=
  match rest with
  | [] => match all with
          | [] => (edit, edit)
          | d0 :: _ =>
              let l := last all d0 in
              (source_line_end l - (tracking_end l - edit), edit)
          end
  | d :: _ =>
      if (negb (d_applied d) || Z.leb edit (d_track d))%bool
      then (d_src d - (d_track d - edit), edit)
      else (d_src d, d_track d)
  end.

(** QList::at: outside the list is undefined. *)
Definition at_ {A} (l : list A) (i : Z) : res A :=
  if Z.ltb i 0 then UB "negative index into a list"
  else match nth_error l (Z.to_nat i) with
       | Some x => Ok x
       | None => UB "index into a list out of range"
       end.
(** for (i = from; i < to; ++i) append(l.at(i - base)) *)
Fixpoint append_lines (l : list str) (i : Z) (n : nat) : res (list str) :=
  match n with
  | O => Ok []
  | S n' => do x <- at_ l i; do r <- append_lines l (i + 1) n'; Ok (x :: r)
  end.
Definition copy_range (l : list str) (base from to : Z) : res (list str) :=
  append_lines l (from - base) (Z.to_nat (to - from)).

Definition texts (l : list dstr) : list str := map ds_string l.

(** 573-588: the loop over the applied differences that collects source lines. *)
Fixpoint source_loop (old : list str) (edit edit_end : Z) (its : list difference) : res (list str) :=
  match its with
  | [] => Ok []
  | d :: rest =>
      let '(own, start_pos) :=
        if d_applied d then (texts (d_slines d), tracking_end d)
        else ([], if Z.ltb (d_track d) edit then edit else d_track d) in
      let end_pos := match rest with [] => edit_end | d' :: _ => d_track d' end in
      do gap <- copy_range old edit start_pos end_pos;
      do r <- source_loop old edit edit_end rest;
      Ok (own ++ gap ++ r)
  end.

(** 543-589: the two line sequences. *)
Definition region_lines (old new : list str) (edit edit_end : Z) (applied : list difference)
  : res (list str * list str) :=
  match applied with
  | [] => Ok (old, new)
  | first :: _ =>
      let la := last applied first in
      do head <- copy_range (texts (d_dlines first)) (d_track first) (d_track first) edit;
      do tail <- copy_range (texts (d_dlines la)) (d_track la) edit_end (tracking_end la);
      do before <- (if Z.leb edit (d_track first) then copy_range old edit edit (d_track first) else Ok []);
      do src <- source_loop old edit edit_end applied;
      Ok (before ++ src, head ++ new ++ tail)
  end.

(** diffmodel_p.cpp 59-78 processStartMarker: the marker iterator must have two more elements; returns
    the collected lines, the remaining markers and the new current line. *)
Definition process_start_marker (lines : list str) (ms : list marker) (cur : Z)
  : res (list str * list marker * Z) :=
  match ms with
  | _ :: mk_marker _ e :: ms' =>
      do ls <- append_lines lines cur (Z.to_nat (Z.of_nat e - cur));
      Ok (ls, ms', Z.of_nat e)
  | _ => UB "marker list ended"
  end.
(** diffmodel_p.cpp 46-56 computeDiffStats. *)
Definition compute_diff_stats (d : difference) : res difference :=
  let d := if (Z.ltb 0 (slc d) && Z.ltb 0 (dlc d))%bool then set_type Change d
           else if Z.ltb 0 (slc d) then set_type Delete d
           else if Z.ltb 0 (dlc d) then set_type Insert d
           else d in
  determine_inline d.

Definition marker_offset (ms : list marker) (terminator : Z) : Z :=
  match ms with [] => terminator | m :: _ => Z.of_nat (m_offset m) end.

(** 604-634: the marker loop; the differences it creates, in order. Every turn consumes at least one
    marker, so the number of markers is enough fuel. *)
Fixpoint marker_loop (fuel : nat) (src dst : list str) (sl dl : Z) (terminator : Z)
  (m1 m2 : list marker) (cs cd : Z) : res (list difference) :=
  match m1, m2 with
  | [], [] => Ok []
  | _, _ =>
      match fuel with
      | O => OutOfFuel
      | S fuel =>
          let ns := marker_offset m1 terminator in
          let nd := marker_offset m2 terminator in
          let skip := Z.min (nd - cd) (ns - cs) in
          let cs := cs + skip in
          let cd := cd + skip in
          let d := new_diff (sl + cs) (dl + cd) Unchanged in   (* difference.h: default type Unchanged *)
          do r <- (if Z.eqb ns cs then process_start_marker src m1 cs else Ok ([], m1, cs));
          let '(ls, m1, cs) := r in
          do r <- (if Z.eqb nd cd then process_start_marker dst m2 cd else Ok ([], m2, cd));
          let '(ld, m2, cd) := r in
          let d := set_lines (map new_ds ls) (map new_ds ld) d in
          do d <- compute_diff_stats d;
          let d := apply_quietly true d in
          let d := set_track (d_dst d) d in
          do ds <- marker_loop fuel src dst sl dl terminator m1 m2 cs cd;
          Ok (d :: ds)
      end
  end.

(** 635-638: tracking numbers after the edit. *)
Fixpoint shift_after (l : list nat) (delta : Z) (st : list difference) : res (list difference) :=
  match l with
  | [] => Ok st
  | i :: l' => do d <- deref st i; shift_after l' delta (update st i (set_track (d_track d + delta) d))
  end.

(** The whole function; [qhash] is Qt's string hash. Returns the new model, the inserted and the removed
    differences (by id). Simplification: all pointers in the list are dereferenced at the start. *)
Definition lines_changed (qhash : str -> N) (m : dmodel) (old new : list str) (edit : Z)
  : res (dmodel * list nat * list nat) :=
  match old, new with
  | [], [] => Ok (m, [], [])
  | _, _ =>
      do all <- deref_all (dm_store m) (dm_diffs m);
      let edit_end := edit + Z.of_nat (length old) in
      let '(pre, rest) := until (starts_range edit) all in
      let '(mid, post) := until (stops_range edit_end) rest in
      let applied := filter d_applied mid in
      let '(sl, dl) := region_numbers edit all rest in
      do r <- region_lines old new edit edit_end applied;
      let '(src, dst) := r in
      let n1 := length pre in
      let n2 := length mid in
      let ids_pre := firstn n1 (dm_diffs m) in
      let removed := firstn n2 (skipn n1 (dm_diffs m)) in
      let ids_post := skipn (n1 + n2) (dm_diffs m) in
      let p := lines_pair qhash src dst in
      do r <- create_table new_table p;
      do ms <- create_markers (snd r) p [] [];
      let '(m1, m2) := ms in
      let terminator := Z.of_nat (length src + length dst + 1) in
      do news <- marker_loop (length m1 + length m2) src dst sl dl terminator m1 m2 0 0;
      let inserted := seq (length (dm_store m)) (length news) in
      do st <- shift_after ids_post (Z.of_nat (length new) - Z.of_nat (length old)) (dm_store m ++ news);
      Ok (with_contents m (dm_hunks m) (ids_pre ++ inserted ++ ids_post) st, inserted, removed)
  end.
