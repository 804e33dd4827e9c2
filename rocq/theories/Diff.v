(** Model of differencestring(_p).h/.cpp, difference(_p).h/.cpp, diffhunk.cpp, diffmodel(_p).cpp
    (everything except linesChanged, which is in LinesChanged.v). *)
From Coq Require Import String.
From Verif Require Import Base QtStr Lev.
Local Open Scope Z_scope.

(** * DifferenceString (differencestring_p.h 20-72, differencestring.cpp) *)
Record dstr := mk_ds {
  ds_string : str; ds_conflict : str; ds_hash : N; ds_markers : list marker }.

(** differencestring_p.h 60-70 calculateHash: one step of
    hash ^= (hash << 5) + str[i] + (hash >> 2), in 32-bit unsigned arithmetic. *)
Definition hash_step (h : N) (c : chr) : N :=
  N.lxor h (u32 (u32 (N.shiftl h 5) + c + N.shiftr h 2)).
Definition calculate_hash (s : str) : N := fold_left hash_step s 1315423911%N.
(** differencestring_p.h 40-45: constructor from a string (markerList defaults to empty). *)
Definition new_ds (s : str) : dstr := mk_ds s [] (calculate_hash s) [].
(** differencestring.cpp 62-68 setString; 70-75 setConflictString; 77-82 setMarkerList;
    84-89 prepend. *)
Definition ds_set_string (s : str) (d : dstr) : dstr :=
  mk_ds s (ds_conflict d) (calculate_hash s) (ds_markers d).
Definition ds_set_conflict (s : str) (d : dstr) : dstr :=
  mk_ds (ds_string d) s (ds_hash d) (ds_markers d).
Definition ds_set_markers (ms : list marker) (d : dstr) : dstr :=
  mk_ds (ds_string d) (ds_conflict d) (ds_hash d) ms.
(** differencestring_p.h 52-58 operator==. *)
Definition ds_eq (a b : dstr) : bool :=
  if negb (N.eqb (ds_hash a) (ds_hash b)) then false
  else str_eqb (ds_string a) (ds_string b).

(** * Difference (difference.h 33-38: types) *)
Inductive dtype := Change | Insert | Delete | Unchanged.
Definition dtype_eqb (a b : dtype) : bool :=
  match a, b with
  | Change, Change | Insert, Insert | Delete, Delete | Unchanged, Unchanged => true
  | _, _ => false
  end.

(** difference_p.h 17-36. [d_connected] records whether the differenceApplied signal is connected
    to the owning model (diffmodel.cpp 374-380 addDiff connects; linesChanged does not). *)
Record difference := mk_diff {
  d_type : dtype; d_src : Z; d_dst : Z; d_track : Z;
  d_slines : list dstr; d_dlines : list dstr;
  d_applied : bool; d_conflicts : bool; d_unsaved : bool; d_connected : bool }.

(** difference_p.h 38-44 constructor: tracking number starts as the source line number. *)
Definition new_diff (src dst : Z) (ty : dtype) : difference :=
  mk_diff ty src dst src [] [] false false false false.
(** difference.cpp 129-141 addSourceLine / addDestinationLine; 122-127 setType; 52-57 setTrackingDestinationLineNumber; 108-113 setUnsaved. *)
Definition add_source_line (s : str) (d : difference) : difference :=
  mk_diff (d_type d) (d_src d) (d_dst d) (d_track d) (d_slines d ++ [new_ds s]) (d_dlines d)
    (d_applied d) (d_conflicts d) (d_unsaved d) (d_connected d).
Definition add_destination_line (s : str) (d : difference) : difference :=
  mk_diff (d_type d) (d_src d) (d_dst d) (d_track d) (d_slines d) (d_dlines d ++ [new_ds s])
    (d_applied d) (d_conflicts d) (d_unsaved d) (d_connected d).
Definition set_type (ty : dtype) (d : difference) : difference :=
  mk_diff ty (d_src d) (d_dst d) (d_track d) (d_slines d) (d_dlines d)
    (d_applied d) (d_conflicts d) (d_unsaved d) (d_connected d).
Definition set_track (z : Z) (d : difference) : difference :=
  mk_diff (d_type d) (d_src d) (d_dst d) z (d_slines d) (d_dlines d)
    (d_applied d) (d_conflicts d) (d_unsaved d) (d_connected d).
Definition set_unsaved (b : bool) (d : difference) : difference :=
  mk_diff (d_type d) (d_src d) (d_dst d) (d_track d) (d_slines d) (d_dlines d)
    (d_applied d) (d_conflicts d) b (d_connected d).
Definition set_lines (sl dl : list dstr) (d : difference) : difference :=
  mk_diff (d_type d) (d_src d) (d_dst d) (d_track d) sl dl
    (d_applied d) (d_conflicts d) (d_unsaved d) (d_connected d).
Definition set_connected (b : bool) (d : difference) : difference :=
  mk_diff (d_type d) (d_src d) (d_dst d) (d_track d) (d_slines d) (d_dlines d)
    (d_applied d) (d_conflicts d) (d_unsaved d) b.

(** difference.cpp 143-176: counts and ends. *)
Definition slc (d : difference) : Z := Z.of_nat (length (d_slines d)).
Definition dlc (d : difference) : Z := Z.of_nat (length (d_dlines d)).
Definition source_line_end (d : difference) : Z := d_src d + slc d.
Definition destination_line_end (d : difference) : Z := d_dst d + dlc d.
Definition tracking_end (d : difference) : Z := d_track d + dlc d.

(** difference.cpp 178-201: apply and applyQuietly change the same two fields; [apply] also emits
    differenceApplied (iff the state changed). *)
Definition apply_quietly (b : bool) (d : difference) : difference :=
  if Bool.eqb (d_applied d) b then d
  else mk_diff (d_type d) (d_src d) (d_dst d) (d_track d) (d_slines d) (d_dlines d)
         b (d_conflicts d) (negb (d_unsaved d)) (d_connected d).

(** difference.cpp 203-229 determineInlineDifferences; the table object is reused from line to
    line (218-229). *)
Definition inline_line (t : table) (s d : dstr) : res (table * dstr * dstr) :=
  let p := string_pair (ds_string s) (ds_string d) in
  do r <- create_table t p;
  let '(dist, t) := r in
  if Nat.eqb dist 0 then Ok (t, s, d)
  else
    do r <- create_markers t p (ds_markers s) (ds_markers d);
    let '(m1, m2) := r in
    Ok (t, ds_set_markers m1 s, ds_set_markers m2 d).
Fixpoint inline_lines (t : table) (sl dl : list dstr) : res (list dstr * list dstr) :=
  match sl, dl with
  | s :: sl', d :: dl' =>
      do r <- inline_line t s d;
      let '(t, s, d) := r in
      do r <- inline_lines t sl' dl';
      let '(sl', dl') := r in
      Ok (s :: sl', d :: dl')
  | [], [] => Ok ([], [])
  | _, _ => UB "lines differ in number"
  end.
Definition determine_inline (d : difference) : res difference :=
  if negb (dtype_eqb (d_type d) Change) then Ok d
  else if negb (Nat.eqb (length (d_slines d)) (length (d_dlines d))) then Ok d
  else
    do r <- inline_lines new_table (d_slines d) (d_dlines d);
    let '(sl, dl) := r in
    Ok (set_lines sl dl d).

(** difference.cpp 231-272 recreateDifference. *)
Definition recreate_difference (d : difference) : str :=
  concat (map (fun l => match d_type d with
                        | Change | Delete => 45%N :: ds_string l   (* '-' *)
                        | _ => []
                        end) (d_slines d)) ++
  concat (map (fun l => match d_type d with
                        | Change | Insert => 43%N :: ds_string l   (* '+' *)
                        | Unchanged => SP :: ds_string l
                        | Delete => []
                        end) (d_dlines d)).

(** * DiffHunk (diffhunk_p.h 18-37, diffhunk.cpp) *)
Inductive htype := HNormal | HAddedByBlend.
(** Differences are referred to by their index in the store of the owning model. *)
Record hunk := mk_hunk {
  h_src : Z; h_dst : Z; h_function : str; h_type : htype; h_diffs : list nat }.

(** * DiffModel (diffmodel_p.h 18-64) *)
Record dmodel := mk_model {
  dm_source : str; dm_destination : str;
  dm_spath : str; dm_dpath : str;
  dm_sfile : str; dm_dfile : str;
  dm_sts : str; dm_dts : str;          (* timestamps *)
  dm_srev : str; dm_drev : str;        (* revisions *)
  dm_hunks : list hunk;
  dm_diffs : list nat;                 (* differences, by id *)
  dm_store : list difference;          (* the Difference objects, id = position *)
  dm_applied : Z;                      (* appliedCount *)
  dm_index : Z;                        (* diffIndex *)
  dm_sel : option nat;                 (* selectedDifference *)
  dm_blended : bool }.

Definition empty_model : dmodel :=
  mk_model [] [] [] [] [] [] [] [] [] [] [] [] [] 0 0 None false.

(** Field updates (C++ assignments to members). *)
Definition with_names (m : dmodel) (src dst sp dp sf df : str) : dmodel :=
  mk_model src dst sp dp sf df (dm_sts m) (dm_dts m) (dm_srev m) (dm_drev m)
    (dm_hunks m) (dm_diffs m) (dm_store m) (dm_applied m) (dm_index m) (dm_sel m) (dm_blended m).
Definition with_stamps (m : dmodel) (sts dts srev drev : str) : dmodel :=
  mk_model (dm_source m) (dm_destination m) (dm_spath m) (dm_dpath m) (dm_sfile m) (dm_dfile m)
    sts dts srev drev
    (dm_hunks m) (dm_diffs m) (dm_store m) (dm_applied m) (dm_index m) (dm_sel m) (dm_blended m).
Definition with_contents (m : dmodel) (hs : list hunk) (ds : list nat) (st : list difference) : dmodel :=
  mk_model (dm_source m) (dm_destination m) (dm_spath m) (dm_dpath m) (dm_sfile m) (dm_dfile m)
    (dm_sts m) (dm_dts m) (dm_srev m) (dm_drev m)
    hs ds st (dm_applied m) (dm_index m) (dm_sel m) (dm_blended m).
Definition with_store (m : dmodel) (st : list difference) : dmodel :=
  with_contents m (dm_hunks m) (dm_diffs m) st.
Definition with_applied (m : dmodel) (z : Z) : dmodel :=
  mk_model (dm_source m) (dm_destination m) (dm_spath m) (dm_dpath m) (dm_sfile m) (dm_dfile m)
    (dm_sts m) (dm_dts m) (dm_srev m) (dm_drev m)
    (dm_hunks m) (dm_diffs m) (dm_store m) z (dm_index m) (dm_sel m) (dm_blended m).
Definition with_selection (m : dmodel) (i : Z) (sel : option nat) : dmodel :=
  mk_model (dm_source m) (dm_destination m) (dm_spath m) (dm_dpath m) (dm_sfile m) (dm_dfile m)
    (dm_sts m) (dm_dts m) (dm_srev m) (dm_drev m)
    (dm_hunks m) (dm_diffs m) (dm_store m) (dm_applied m) i sel (dm_blended m).
Definition with_blended (m : dmodel) (b : bool) : dmodel :=
  mk_model (dm_source m) (dm_destination m) (dm_spath m) (dm_dpath m) (dm_sfile m) (dm_dfile m)
    (dm_sts m) (dm_dts m) (dm_srev m) (dm_drev m)
    (dm_hunks m) (dm_diffs m) (dm_store m) (dm_applied m) (dm_index m) (dm_sel m) b.

(** diffmodel_p.cpp 15-28 splitSourceInPathAndFileName: the directory is only assigned when there is
    a '/' (the old one stays otherwise). *)
Definition split_source (m : dmodel) : dmodel :=
  let s := dm_source m in
  match last_index_of SLASH s with
  | Some pos => with_names m s (dm_destination m) (mid s 0 (pos + 1)) (dm_dpath m)
                  (mid s (pos + 1) (length s - pos)) (dm_dfile m)
  | None => with_names m s (dm_destination m) (dm_spath m) (dm_dpath m) s (dm_dfile m)
  end.
(** diffmodel_p.cpp 30-43 splitDestinationInPathAndFileName. *)
Definition split_destination (m : dmodel) : dmodel :=
  let s := dm_destination m in
  match last_index_of SLASH s with
  | Some pos => with_names m (dm_source m) s (dm_spath m) (mid s 0 (pos + 1))
                  (dm_sfile m) (mid s (pos + 1) (length s - pos))
  | None => with_names m (dm_source m) s (dm_spath m) (dm_dpath m) (dm_sfile m) s
  end.
(** diffmodel.cpp 23-30: constructor. *)
Definition new_model (source destination : str) : dmodel :=
  split_destination (split_source
    (with_names empty_model source destination [] [] [] [])).
(** diffmodel.cpp 309-315 setSourceFile, 317-323 setDestinationFile. *)
Definition set_source_file (path : str) (m : dmodel) : dmodel :=
  split_source (with_names m path (dm_destination m) (dm_spath m) (dm_dpath m) (dm_sfile m) (dm_dfile m)).
Definition set_destination_file (path : str) (m : dmodel) : dmodel :=
  split_destination (with_names m (dm_source m) path (dm_spath m) (dm_dpath m) (dm_sfile m) (dm_dfile m)).
(** diffmodel.cpp 325-351: timestamps and revisions. *)
Definition set_source_timestamp (s : str) (m : dmodel) := with_stamps m s (dm_dts m) (dm_srev m) (dm_drev m).
Definition set_destination_timestamp (s : str) (m : dmodel) := with_stamps m (dm_sts m) s (dm_srev m) (dm_drev m).
Definition set_source_revision (s : str) (m : dmodel) := with_stamps m (dm_sts m) (dm_dts m) s (dm_drev m).
Definition set_destination_revision (s : str) (m : dmodel) := with_stamps m (dm_sts m) (dm_dts m) (dm_srev m) s.

(** The Difference objects behind a list of ids (dereferencing pointers); an id that is not in the
    store would be a dangling pointer. *)
Definition deref (st : list difference) (i : nat) : res difference :=
  match nth_error st i with Some d => Ok d | None => UB "dangling Difference pointer" end.
Fixpoint deref_all (st : list difference) (l : list nat) : res (list difference) :=
  match l with
  | [] => Ok []
  | i :: l' => do d <- deref st i; do ds <- deref_all st l'; Ok (d :: ds)
  end.
(** Assignment through a pointer. *)
Fixpoint update {A} (l : list A) (i : nat) (v : A) : list A :=
  match l, i with
  | [], _ => []
  | _ :: l', O => v :: l'
  | x :: l', S i' => x :: update l' i' v
  end.

(** diffhunk.cpp 72-96 sourceLineCount / destinationLineCount. *)
Definition sum_slc (ds : list difference) : Z := fold_left (fun n d => n + slc d) ds 0.
Definition sum_dlc (ds : list difference) : Z := fold_left (fun n d => n + dlc d) ds 0.

(** diffhunk.cpp 98-137 recreateHunk, given the hunk's differences. *)
Definition recreate_hunk_of (h : hunk) (ds : list difference) : str :=
  let n1 := fold_left (fun n d => match d_type d with
                                  | Unchanged | Change | Delete => n + slc d
                                  | Insert => n end) ds 0 in
  let n2 := fold_left (fun n d => match d_type d with
                                  | Unchanged | Change | Insert => n + dlc d
                                  | Delete => n end) ds 0 in
  lit "@@ -" ++ number (h_src h) ++ lit "," ++ number n1 ++ lit " +" ++ number (h_dst h) ++ lit "," ++
  number n2 ++ lit " @@" ++
  (match h_function h with [] => [] | _ => SP :: h_function h end) ++ [NL] ++
  concat (map recreate_difference ds).
Definition recreate_hunk (st : list difference) (h : hunk) : res str :=
  do ds <- deref_all st (h_diffs h);
  Ok (recreate_hunk_of h ds).

(** parserbase.cpp 23-38 unescapePath (non-Windows). *)
Definition unescape_path (path : str) : str :=
  let path := if (starts_with [QUOTE] path && ends_with_chr QUOTE path)%bool
              then mid path 1 (length path - 2) (* mid(1, -1) of a lone quote is empty, as here *)
              else path in
  let path := replace [BSL; QUOTE] [QUOTE] path in
  replace [BSL; BSL] [BSL] path.
(** parserbase.cpp 41-56 escapePath (non-Windows). *)
Definition escape_path (path : str) : str :=
  let path := replace [BSL] [BSL; BSL] path in
  let path := replace [QUOTE] [BSL; QUOTE] path in
  if contains_chr SP path then QUOTE :: path ++ [QUOTE] else path.

(** diffmodel.cpp 150-177 recreateDiff. *)
Fixpoint recreate_hunks (st : list difference) (hs : list hunk) : res str :=
  match hs with
  | [] => Ok []
  | h :: hs' =>
      do s1 <- match h_type h with
               | HAddedByBlend => Ok []
               | HNormal => recreate_hunk st h
               end;
      do s2 <- recreate_hunks st hs';
      Ok (s1 ++ s2)
  end.
Definition recreate_header (m : dmodel) : str :=
  lit "--- " ++ escape_path (dm_source m) ++ [TAB] ++ dm_sts m ++
  (match dm_srev m with [] => [] | r => TAB :: r end) ++ [NL] ++
  lit "+++ " ++ escape_path (dm_destination m) ++ [TAB] ++ dm_dts m ++
  (match dm_drev m with [] => [] | r => TAB :: r end) ++ [NL].
Definition recreate_diff (m : dmodel) : res str :=
  do body <- recreate_hunks (dm_store m) (dm_hunks m);
  Ok (recreate_header m ++ body).

(** diffmodel.cpp 367-372 addHunk; 374-380 addDiff (connects the signal); diffhunk.cpp 65-70 add.
    Allocation: a new Difference gets the next id. *)
Definition alloc_diff (m : dmodel) (d : difference) : dmodel * nat :=
  (with_store m (dm_store m ++ [d]), length (dm_store m)).
Definition add_hunk (m : dmodel) (h : hunk) : dmodel :=
  with_contents m (dm_hunks m ++ [h]) (dm_diffs m) (dm_store m).
Definition hunk_add (h : hunk) (i : nat) : hunk :=
  mk_hunk (h_src h) (h_dst h) (h_function h) (h_type h) (h_diffs h ++ [i]).

(** diffmodel.cpp 396-403 hasUnsavedChanges. *)
Definition has_unsaved (m : dmodel) : res bool :=
  do ds <- deref_all (dm_store m) (dm_diffs m);
  Ok (existsb d_unsaved ds).

(** diffmodel.cpp 421-428 GetDifferenceDelta. *)
Definition difference_delta (d : difference) : Z :=
  let delta := dlc d - slc d in
  if d_applied d then delta else - delta.

(** diffmodel.cpp 430-440 slotDifferenceApplied: shift the tracking numbers of the listed
    differences whose destination line number is larger. *)
Fixpoint shift_tracking (l : list nat) (line delta : Z) (st : list difference) : res (list difference) :=
  match l with
  | [] => Ok st
  | i :: l' =>
      do cur <- deref st i;
      let st := if Z.ltb line (d_dst cur)
                then update st i (set_track (d_track cur + delta) cur) else st in
      shift_tracking l' line delta st
  end.
Definition slot_difference_applied (m : dmodel) (d : difference) : res dmodel :=
  do st <- shift_tracking (dm_diffs m) (d_dst d) (difference_delta d) (dm_store m);
  Ok (with_store m st).

(** difference.cpp 178-189 Difference::apply called on the object with id [i] of model [m]: flips
    the state and, when connected, runs the model's slot (synchronously). *)
Definition apply_id (m : dmodel) (i : nat) (b : bool) : res dmodel :=
  do d <- deref (dm_store m) i;
  if Bool.eqb (d_applied d) b then Ok m
  else
    let d := apply_quietly b d in
    let m := with_store m (update (dm_store m) i d) in
    if d_connected d then slot_difference_applied m d else Ok m.

(** diffmodel.cpp 405-419 applyDifference (on the selected difference). *)
Definition apply_difference (m : dmodel) (b : bool) : res dmodel :=
  match dm_sel m with
  | None => UB "applyDifference without selected difference"
  | Some i =>
      do d <- deref (dm_store m) i;
      if Bool.eqb (d_applied d) b then Ok m
      else
        let m := with_applied m (if b then dm_applied m + 1 else dm_applied m - 1) in
        apply_id m i b
  end.

(** diffmodel.cpp 442-464 applyAllDifferences. *)
Fixpoint apply_all_loop (l : list nat) (b : bool) (total : Z) (st : list difference)
  : res (list difference) :=
  match l with
  | [] => Ok st
  | i :: l' =>
      do d <- deref st i;
      let d := set_track (d_track d + total) d in
      if Bool.eqb (d_applied d) b then apply_all_loop l' b total (update st i d)
      else
        let d := apply_quietly b d in
        apply_all_loop l' b (total + difference_delta d) (update st i d)
  end.
Definition apply_all (m : dmodel) (b : bool) : res dmodel :=
  let m := with_applied m (if b then Z.of_nat (length (dm_diffs m)) else 0) in
  do st <- apply_all_loop (dm_diffs m) b 0 (dm_store m);
  Ok (with_store m st).

(** QList::indexOf on ids; None stands for -1. *)
Fixpoint find_id (i : nat) (l : list nat) : option nat :=
  match l with
  | [] => None
  | j :: l' => if Nat.eqb i j then Some O
               else match find_id i l' with Some k => Some (S k) | None => None end
  end.
(** diffmodel.cpp 466-483 setSelectedDifference; [diff] may be null. *)
Definition sel_eqb (a b : option nat) : bool :=
  match a, b with
  | None, None => true
  | Some x, Some y => Nat.eqb x y
  | _, _ => false
  end.
Definition set_selected_difference (m : dmodel) (diff : option nat) : dmodel * bool :=
  if sel_eqb diff (dm_sel m) then (m, true)
  else
    match diff with
    | None => (m, false)                       (* null is never in the list *)
    | Some i =>
        match find_id i (dm_diffs m) with
        | None => (m, false)
        | Some k => (with_selection m (Z.of_nat k) (Some i), true)
        end
    end.

(** differences[i] for an int index. *)
Definition diff_at (m : dmodel) (i : Z) : res nat :=
  if Z.ltb i 0 then UB "negative index into differences"
  else match nth_error (dm_diffs m) (Z.to_nat i) with
       | Some x => Ok x
       | None => UB "index into differences out of range"
       end.
(** diffmodel.cpp 179-190 firstDifference, 192-203 lastDifference. *)
Definition first_difference (m : dmodel) : res (dmodel * nat) :=
  do i <- diff_at m 0;
  Ok (with_selection m 0 (Some i), i).
Definition last_difference (m : dmodel) : res (dmodel * nat) :=
  let k := Z.of_nat (length (dm_diffs m)) - 1 in
  do i <- diff_at m k;
  Ok (with_selection m k (Some i), i).
(** diffmodel.cpp 205-220 prevDifference. *)
Definition prev_difference (m : dmodel) : res (dmodel * option nat) :=
  if (Z.ltb 0 (dm_index m) && Z.ltb (dm_index m - 1) (Z.of_nat (length (dm_diffs m))))%bool then
    do i <- diff_at m (dm_index m - 1);
    Ok (with_selection m (dm_index m - 1) (Some i), Some i)
  else Ok (with_selection m 0 None, None).
(** diffmodel.cpp 222-237 nextDifference. *)
Definition next_difference (m : dmodel) : res (dmodel * option nat) :=
  if Z.ltb (dm_index m + 1) (Z.of_nat (length (dm_diffs m))) then
    do i <- diff_at m (dm_index m + 1);
    Ok (with_selection m (dm_index m + 1) (Some i), Some i)
  else Ok (with_selection m 0 None, None).

(** diffmodel.cpp 135-148 localeAwareCompareSource, 51-56 operator<; [coll] is
    QString::localeAwareCompare. *)
Definition compare_source (coll : str -> str -> comparison) (a b : dmodel) : comparison :=
  match coll (dm_spath a) (dm_spath b) with
  | Eq => coll (dm_sfile a) (dm_sfile b)
  | c => c
  end.
Definition model_less (coll : str -> str -> comparison) (a b : dmodel) : bool :=
  match compare_source coll a b with Lt => true | _ => false end.
