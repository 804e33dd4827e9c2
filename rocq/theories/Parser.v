(** Model of parserbase.cpp, cvsdiffparser.cpp, diffparser.cpp, perforceparser.cpp, parser.cpp,
    diffmodellist.cpp. The iterator m_diffIterator is the list of the lines still to come; dereferencing
    it when that list is empty is UB. Line numbers and line counts are unbounded integers (Ints.v
    has them checked). Debug output is not modelled. *)
From Coq Require Import String.
From Verif Require Import Base QtStr Lev Diff Regex Patterns.
Local Open Scope Z_scope.

(** global.h 16-24, 29-41. SideBySide and the reserved generators never arise. *)
Inductive format := UnknownFormat | Context | Ed | Normal | RCS | Unified.
Inductive generator := CVSDiff | DiffDiff | Perforce.

(** QString::toInt(&ok) of a digit string: None when it does not fit an int. *)
Definition to_int_opt (s : str) : option Z :=
  if (negb (Nat.eqb (length s) 0) && forallb is_digit s)%bool then
    let v := digits_value 0 s in
    if Z.leb v 2147483647 then Some v else None
  else None.

(** * Putting a parsed hunk into the model *)
(** diffmodel.cpp 374-380 addDiff: append to the list and connect the signal. *)
Definition add_diff (m : dmodel) (i : nat) : res dmodel :=
  do d <- deref (dm_store m) i;
  Ok (with_contents m (dm_hunks m) (dm_diffs m ++ [i]) (update (dm_store m) i (set_connected true d))).
(** new Difference, hunk->add(diff) and, unless it is context, model->addDiff(diff). The parsers do
    this difference by difference while reading; nothing looks at the model in between, so it is done
    here once per hunk, with the finished differences. *)
Fixpoint add_differences (m : dmodel) (h : hunk) (ds : list difference) : res (dmodel * hunk) :=
  match ds with
  | [] => Ok (m, h)
  | d :: ds' =>
      let '(m, i) := alloc_diff m d in
      let h := hunk_add h i in
      do m <- (if dtype_eqb (d_type d) Unchanged then Ok m else add_diff m i);
      add_differences m h ds'
  end.
Definition add_parsed_hunk (m : dmodel) (src dst : Z) (function : str) (ds : list difference) : res dmodel :=
  do r <- add_differences m (mk_hunk src dst function HNormal []) ds;
  let '(m, h) := r in
  Ok (add_hunk m h).

(** * File headers *)
(** parserbase.cpp 223-257 parseUnifiedDiffHeader. The second line is dereferenced (238) before the
    iterator is compared with the end (239). Group 4 (242, 244) does not exist in the pattern, so the
    revisions are empty. Result: the new model, if any, and the remaining lines. *)
Fixpoint unified_diff_header (ls : list str) : res (option dmodel * list str) :=
  match ls with
  | [] => Ok (None, [])
  | l :: ls' =>
      match full_match unified_header1 l with
      | None => unified_diff_header ls'
      | Some c1 =>
          match ls' with
          | [] => UB "parseUnifiedDiffHeader: dereference of end()"
          | l2 :: ls'' =>
              match full_match unified_header2 l2 with
              | Some c2 =>
                  let m := new_model (unescape_path (captured 1 c1)) (unescape_path (captured 1 c2)) in
                  let m := set_source_timestamp (captured 2 c1) m in
                  let m := set_source_revision (captured 4 c1) m in
                  let m := set_destination_timestamp (captured 2 c2) m in
                  let m := set_destination_revision (captured 4 c2) m in
                  Ok (Some m, ls'')
              | None => Ok (None, ls')
              end
          end
      end
  end.
(** parserbase.cpp 139-176 parseContextDiffHeader; [h1], [h2] are the dialect's patterns. *)
Fixpoint context_diff_header (h1 h2 : re) (ls : list str) : res (option dmodel * list str) :=
  match ls with
  | [] => Ok (None, [])
  | l :: ls' =>
      match full_match h1 l with
      | None => context_diff_header h1 h2 ls'
      | Some c1 =>
          match ls' with
          | [] => UB "parseContextDiffHeader: dereference of end()"
          | l2 :: ls'' =>
              match full_match h2 l2 with
              | Some c2 =>
                  let m := new_model (unescape_path (captured 1 c1)) (unescape_path (captured 1 c2)) in
                  let m := set_source_timestamp (captured 3 c1) m in
                  let m := set_source_revision (captured 5 c1) m in
                  let m := set_destination_timestamp (captured 3 c2) m in
                  let m := set_destination_revision (captured 5 c2) m in
                  Ok (Some m, ls'')
              | None => Ok (None, ls')
              end
          end
      end
  end.
(** parserbase.cpp 183-206 parseNormalDiffHeader, the search; cvsdiffparser.cpp 66-91 the same with
    another pattern, one name for both sides and no unescaping. *)
Fixpoint normal_diff_header_search (cvs : bool) (ls : list str) : option dmodel * list str :=
  match ls with
  | [] => (None, [])
  | l :: ls' =>
      match full_match (if cvs then cvs_normal_header else normal_diff_header) l with
      | Some c =>
          (Some (if cvs
                 then set_destination_file (captured 1 c) (set_source_file (captured 1 c) (new_model [] []))
                 else set_destination_file (unescape_path (captured 2 c))
                        (set_source_file (unescape_path (captured 1 c)) (new_model [] []))), ls')
      | None => normal_diff_header_search cvs ls'
      end
  end.
(** perforceparser.cpp 64-104, 106-147, 154-195: the three header functions are the same. *)
Fixpoint perforce_diff_header (ls : list str) : option dmodel * list str :=
  match ls with
  | [] => (None, [])
  | l :: ls' =>
      match full_match perforce_header l with
      | Some c =>
          let name r s := match full_match r s with Some c => captured 1 c | None => [] end in
          (Some (set_destination_file (name perforce_destination_file (captured 2 c))
                   (set_source_file (name perforce_source_file (captured 1 c)) (new_model [] []))), ls')
      | None => perforce_diff_header ls'
      end
  end.

(** * Unified hunks *)
(** parserbase.cpp 315-328 parseUnifiedHunkHeader: the match and the remaining lines. *)
Definition unified_hunk_header_at (ls : list str) : option (caps * list str) :=
  match ls with
  | [] => None
  | l :: ls' => match full_match unified_hunk_header l with
                | Some c => Some (c, ls')
                | None => None
                end
  end.
(** parserbase.cpp 531-540 matchesUnifiedHunkLine: line[0] of an empty line is UB. *)
Definition matches_unified_hunk_line (l : str) : res bool :=
  match l with
  | [] => UB "matchesUnifiedHunkLine: line[0] of an empty line"
  | c :: _ => Ok (N.eqb c SP || N.eqb c 43 || N.eqb c 45)%bool
  end.
(** The variables of parseUnifiedHunkBody: remaining lines, line numbers, line counts. *)
Record ucursor := mk_uc { uc_rest : list str; uc_a : Z; uc_b : Z; uc_ca : Z; uc_cb : Z }.
Definition counting (ca cb : Z) : bool := (negb (Z.eqb ca 0) || negb (Z.eqb cb 0))%bool.
(** 587-594, 596-600, 601-605: the three inner loops. *)
Fixpoint take_context (ls : list str) (a b ca cb : Z) (d : difference) : difference * ucursor :=
  match ls with
  | l :: ls' =>
      if (starts_with [SP] l && counting ca cb)%bool
      then take_context ls' (a + 1) (b + 1) (ca - 1) (cb - 1)
             (add_destination_line (skipn 1 l) (add_source_line (skipn 1 l) d))
      else (d, mk_uc ls a b ca cb)
  | [] => (d, mk_uc [] a b ca cb)
  end.
Fixpoint take_removed (ls : list str) (a b ca cb : Z) (d : difference) : difference * ucursor :=
  match ls with
  | l :: ls' =>
      if (starts_with [45%N] l && counting ca cb)%bool
      then take_removed ls' (a + 1) b (ca - 1) cb (add_source_line (skipn 1 l) d)
      else (d, mk_uc ls a b ca cb)
  | [] => (d, mk_uc [] a b ca cb)
  end.
Fixpoint take_added (ls : list str) (a b ca cb : Z) (d : difference) : difference * ucursor :=
  match ls with
  | l :: ls' =>
      if (starts_with [43%N] l && counting ca cb)%bool
      then take_added ls' a (b + 1) ca (cb - 1) (add_destination_line (skipn 1 l) d)
      else (d, mk_uc ls a b ca cb)
  | [] => (d, mk_uc [] a b ca cb)
  end.
(** 582-619: the differences of the hunk and the remaining lines. A new Difference has type Unchanged
    (difference.h 41: the default). *)
Fixpoint unified_body_loop (fuel : nat) (c : ucursor) : res (list difference * list str) :=
  match fuel with
  | O => OutOfFuel
  | S fuel =>
      match uc_rest c with
      | [] => Ok ([], [])
      | l :: _ =>
          do is_line <- matches_unified_hunk_line l;
          if (is_line && counting (uc_ca c) (uc_cb c))%bool then
            let d := new_diff (uc_a c) (uc_b c) Unchanged in
            if starts_with [SP] l then
              let '(d, c) := take_context (uc_rest c) (uc_a c) (uc_b c) (uc_ca c) (uc_cb c) d in
              do r <- unified_body_loop fuel c;
              let '(ds, rest) := r in
              Ok (d :: ds, rest)
            else
              let '(d, c) := take_removed (uc_rest c) (uc_a c) (uc_b c) (uc_ca c) (uc_cb c) d in
              let '(d, c) := take_added (uc_rest c) (uc_a c) (uc_b c) (uc_ca c) (uc_cb c) d in
              let d := if Nat.eqb (length (d_slines d)) 0 then set_type Insert d
                       else if Nat.eqb (length (d_dlines d)) 0 then set_type Delete d
                       else set_type Change d in
              do d <- determine_inline d;
              do r <- unified_body_loop fuel c;
              let '(ds, rest) := r in
              Ok (d :: ds, rest)
          else Ok ([], uc_rest c)
      end
  end.
(** 550-571: line number and count of one side of the header; None: return false. *)
Definition hunk_side (num cnt : str) : option (Z * Z) :=
  let n := to_int num in
  match cnt with
  | [] => Some (n, 1)
  | _ => match to_int_opt cnt with
         | None => None
         | Some k => Some (if Z.eqb k 0 then n + 1 else n, k)
         end
  end.
(** parserbase.cpp 542-622 parseUnifiedHunkBody (its result is not used by the caller). *)
Definition unified_hunk_body (c : caps) (ls : list str) (m : dmodel) : res (dmodel * list str) :=
  match hunk_side (captured 1 c) (captured 3 c) with
  | None => Ok (m, ls)
  | Some (a, ca) =>
      match hunk_side (captured 4 c) (captured 6 c) with
      | None => Ok (m, ls)
      | Some (b, cb) =>
          do r <- unified_body_loop (S (length ls)) (mk_uc ls a b ca cb);
          let '(ds, rest) := r in
          do m <- add_parsed_hunk m a b (captured 7 c) ds;
          Ok (m, rest)
      end
  end.
(** parserbase.cpp 726-727: while (parseUnifiedHunkHeader()) parseUnifiedHunkBody(); *)
Fixpoint unified_hunks (fuel : nat) (ls : list str) (m : dmodel) : res (dmodel * list str) :=
  match fuel with
  | O => OutOfFuel
  | S fuel =>
      match unified_hunk_header_at ls with
      | None => Ok (m, ls)
      | Some (c, ls) =>
          do r <- unified_hunk_body c ls m;
          let '(m, ls) := r in
          unified_hunks fuel ls m
      end
  end.

(** * Context hunks *)
(** parserbase.cpp 259-282 parseContextHunkHeader. On failure the iterator may stand on the second
    header line (270). *)
Definition context_hunk_header_at (ls : list str) : option (caps * caps) * list str :=
  match ls with
  | [] => (None, [])
  | l :: ls' =>
      match full_match context_hunk_header1 l with
      | None => (None, ls)
      | Some c1 =>
          match ls' with
          | [] => (None, [])
          | l2 :: ls'' =>
              match full_match context_hunk_header2 l2 with
              | None => (None, ls')
              | Some c2 => (Some (c1, c2), ls'')
              end
          end
      end
  end.
(** 336-339 and 349-352: the lines of one side, and what remains. *)
Fixpoint take_context_lines (ls : list str) : list str * list str :=
  match ls with
  | l :: ls' => if has_match context_line l
                then let '(ts, rest) := take_context_lines ls' in (l :: ts, rest)
                else ([], ls)
  | [] => ([], [])
  end.
(** 377-385, 393-401, 435-444, 445-454: the captured texts of the leading lines that match [r], and
    the rest. *)
Fixpoint take_matching (r : re) (ls : list str) : list str * list str :=
  match ls with
  | l :: ls' => match full_match r l with
                | Some c => let '(ts, rest) := take_matching r ls' in (captured 1 c :: ts, rest)
                | None => ([], ls)
                end
  | [] => ([], [])
  end.
(** 402-403, 409-410: at the end or at a context line. *)
Definition end_or_context (ls : list str) : bool :=
  match ls with [] => true | l :: _ => has_match context_context l end.
(** 409-426: the texts of the context lines; one line of each side is consumed per round, the text of
    the new side wins. *)
Definition context_text (l : str) : str :=
  match full_match context_context l with Some c => captured 1 c | None => [] end.
Fixpoint take_both (fuel : nat) (old new : list str) : list str * list str * list str :=
  match fuel with
  | O => ([], old, new)
  | S fuel =>
      if (end_or_context old && end_or_context new &&
          negb (match old, new with [], [] => true | _, _ => false end))%bool then
        let t := match new with
                 | n :: _ => context_text n
                 | [] => match old with o :: _ => context_text o | [] => [] end
                 end in
        let '(ts, old, new) := take_both fuel (tl old) (tl new) in
        (t :: ts, old, new)
      else ([], old, new)
  end.
Definition starts_matching (r : re) (ls : list str) : bool :=
  match ls with [] => false | l :: _ => has_match r l end.
Definition with_texts (sl dl : list str) (d : difference) : difference :=
  set_lines (map new_ds sl) (map new_ds dl) d.
(** 369-458: the differences read until the end or until a line fits no case (455-456: return false,
    the differences read so far stay in the model). *)
Fixpoint context_body_loop (fuel : nat) (a b : Z) (old new : list str) : res (list difference) :=
  match fuel with
  | O => OutOfFuel
  | S fuel =>
      match old, new with
      | [], [] => Ok []
      | _, _ =>
          if starts_matching context_removed old then
            let '(ts, old) := take_matching context_removed old in
            do d <- determine_inline (with_texts ts [] (new_diff a b Delete));
            do ds <- context_body_loop fuel (a + Z.of_nat (length ts)) b old new;
            Ok (d :: ds)
          else if starts_matching context_added new then
            let '(ts, new) := take_matching context_added new in
            do d <- determine_inline (with_texts [] ts (new_diff a b Insert));
            do ds <- context_body_loop fuel a (b + Z.of_nat (length ts)) old new;
            Ok (d :: ds)
          else if (end_or_context old && end_or_context new)%bool then
            let '(ts, old, new) := take_both (length old + length new) old new in
            do d <- determine_inline (with_texts ts ts (new_diff a b Unchanged));
            do ds <- context_body_loop fuel (a + Z.of_nat (length ts)) (b + Z.of_nat (length ts)) old new;
            Ok (d :: ds)
          else if (starts_matching context_changed old || starts_matching context_changed new)%bool then
            let '(ts1, old) := take_matching context_changed old in
            let '(ts2, new) := take_matching context_changed new in
            do d <- determine_inline (with_texts ts1 ts2 (new_diff a b Change));
            do ds <- context_body_loop fuel (a + Z.of_nat (length ts1)) (b + Z.of_nat (length ts2)) old new;
            Ok (d :: ds)
          else Ok []
      end
  end.
(** parserbase.cpp 330-461 parseContextHunkBody (its result is not used by the caller). *)
Definition context_hunk_body (c1 c2 : caps) (ls : list str) (m : dmodel) : res (dmodel * list str) :=
  let '(old, ls) := take_context_lines ls in
  match ls with
  | [] => UB "parseContextHunkBody: dereference of end()"
  | l :: ls' =>
      match full_match context_hunk_header3 l with
      | None => Ok (m, ls)
      | Some c3 =>
          let '(new, rest) := take_context_lines ls' in
          let a := to_int (captured 1 c2) in
          let b := to_int (captured 1 c3) in
          do ds <- context_body_loop (S (length old + length new)) a b old new;
          do m <- add_parsed_hunk m a b (captured 1 c1) ds;
          Ok (m, rest)
      end
  end.
(** parserbase.cpp 639-640. *)
Fixpoint context_hunks (fuel : nat) (ls : list str) (m : dmodel) : res (dmodel * list str) :=
  match fuel with
  | O => OutOfFuel
  | S fuel =>
      match context_hunk_header_at ls with
      | (None, ls) => Ok (m, ls)
      | (Some (c1, c2), ls) =>
          do r <- context_hunk_body c1 c2 ls m;
          let '(m, ls) := r in
          context_hunks fuel ls m
      end
  end.

(** * Normal hunks *)
(** parserbase.cpp 289-308 parseNormalHunkHeader with 474-485: type and line numbers. *)
Definition normal_hunk_header_at (ls : list str) : option (dtype * Z * Z * list str) :=
  match ls with
  | [] => None
  | l :: ls' =>
      match full_match normal_added_header l with
      | Some c => Some (Insert, to_int (captured 1 c), to_int (captured 2 c), ls')
      | None =>
          match full_match normal_removed_header l with
          | Some c => Some (Delete, to_int (captured 1 c), to_int (captured 3 c), ls')
          | None =>
              match full_match normal_changed_header l with
              | Some c => Some (Change, to_int (captured 1 c), to_int (captured 3 c), ls')
              | None => None
              end
          end
      end
  end.
(** parserbase.cpp 468-524 parseNormalHunkBody (its result is not used by the caller);
    determineInlineDifferences is not called. *)
Definition normal_hunk_body (ty : dtype) (a b : Z) (ls : list str) (m : dmodel) : res (dmodel * list str) :=
  let '(sl, ls) := match ty with
                   | Change | Delete => take_matching normal_removed ls
                   | _ => ([], ls)
                   end in
  let divided :=
    match ty with
    | Change => match ls with
                | l :: ls' => if has_match normal_divider l then Some ls' else None
                | [] => None
                end
    | _ => Some ls
    end in
  let '(dl, ls) := match divided with
                   | None => ([], ls)
                   | Some ls => match ty with
                                | Change | Insert => take_matching normal_added ls
                                | _ => ([], ls)
                                end
                   end in
  do m <- add_parsed_hunk m a b [] [with_texts sl dl (new_diff a b ty)];
  Ok (m, ls).
(** parserbase.cpp 678-679 and 686-687. *)
Fixpoint normal_hunks (fuel : nat) (ls : list str) (m : dmodel) : res (dmodel * list str) :=
  match fuel with
  | O => OutOfFuel
  | S fuel =>
      match normal_hunk_header_at ls with
      | None => Ok (m, ls)
      | Some (ty, a, b, ls) =>
          do r <- normal_hunk_body ty a b ls m;
          let '(m, ls) := r in
          normal_hunks fuel ls m
      end
  end.

(** * Whole files *)
(** parserbase.cpp 624-634 checkHeader: true if the next line does not look like the next file. *)
Definition bad_next_header (header : re) (ls : list str) : bool :=
  match ls with
  | [] => false
  | l :: _ => (negb (has_match header l) && negb (starts_with (lit "Index: ") l) &&
               negb (starts_with (lit "diff ") l) && negb (starts_with (lit "-- ") l))%bool
  end.
(** 641-642, 680-681, 688-689, 730-731. *)
Definition append_model (ms : list dmodel) (m : dmodel) : list dmodel :=
  if Nat.ltb 0 (length (dm_diffs m)) then ms ++ [m] else ms.
(** parserbase.cpp 638-644, 725-733 (and 677-683): while (parse..DiffHeader()) { hunks; append;
    checkHeader }. [head] and [hunks] are the functions of the format. Result: models, malformed, and
    the lines left. *)
Fixpoint files (head : list str -> res (option dmodel * list str))
               (hunks : list str -> dmodel -> res (dmodel * list str)) (header : re)
               (fuel : nat) (ls : list str) (ms : list dmodel) (bad : bool)
  : res (list dmodel * bool * list str) :=
  match fuel with
  | O => OutOfFuel
  | S fuel =>
      do r <- head ls;
      match r with
      | (None, ls) => Ok (ms, bad, ls)
      | (Some m, ls) =>
          do r <- hunks ls m;
          let '(m, ls) := r in
          files head hunks header fuel ls (append_model ms m) (bad || bad_next_header header ls)%bool
      end
  end.

(** The patterns and header functions of the three dialects (constructors: cvsdiffparser.cpp 17-26,
    diffparser.cpp 16-22, perforceparser.cpp 17-28; virtual functions). *)
Definition context_header1_of (g : generator) : re :=
  match g with CVSDiff => cvs_context_header1 | DiffDiff => diff_context_header "*** " | Perforce => perforce_header end.
Definition context_header2_of (g : generator) : re :=
  match g with CVSDiff => cvs_context_header2 | _ => diff_context_header "--- " end.
Definition unified_header1_of (g : generator) : re :=
  match g with Perforce => perforce_header | _ => unified_header1 end.
Definition normal_header_of (g : generator) : re :=
  match g with CVSDiff => cvs_normal_header | DiffDiff => normal_diff_header | Perforce => perforce_header end.
Definition unified_head_of (g : generator) (ls : list str) : res (option dmodel * list str) :=
  match g with Perforce => Ok (perforce_diff_header ls) | _ => unified_diff_header ls end.
Definition context_head_of (g : generator) (ls : list str) : res (option dmodel * list str) :=
  match g with
  | Perforce => Ok (perforce_diff_header ls)
  | _ => context_diff_header (context_header1_of g) (context_header2_of g) ls
  end.
Definition normal_head_of (g : generator) (ls : list str) : res (option dmodel * list str) :=
  Ok (match g with
      | Perforce => perforce_diff_header ls
      | CVSDiff => normal_diff_header_search true ls
      | DiffDiff => normal_diff_header_search false ls
      end).

Definition hunk_fuel (f : nat -> list str -> dmodel -> res (dmodel * list str))
  (ls : list str) (m : dmodel) : res (dmodel * list str) := f (S (length ls)) ls m.
(** parserbase.cpp 723-733. *)
Definition parse_unified (g : generator) (lines : list str) : res (list dmodel * bool) :=
  do r <- files (unified_head_of g) (hunk_fuel unified_hunks) (unified_header1_of g)
            (S (length lines)) lines [] false;
  let '(ms, bad, _) := r in Ok (ms, bad).
(** parserbase.cpp 636-644. *)
Definition parse_context (g : generator) (lines : list str) : res (list dmodel * bool) :=
  do r <- files (context_head_of g) (hunk_fuel context_hunks) (context_header1_of g)
            (S (length lines)) lines [] false;
  let '(ms, bad, _) := r in Ok (ms, bad).
(** parserbase.cpp 675-692. When the search for a header fails, the base class and the CVS parser go
    back to the first line, with a new model without names, and treat the text as a diff of one file
    (208-213, cvsdiffparser.cpp 93-98); the Perforce parser does not. *)
Definition parse_normal (g : generator) (lines : list str) : res (list dmodel * bool) :=
  do r <- files (normal_head_of g) (hunk_fuel normal_hunks) (normal_header_of g)
            (S (length lines)) lines [] false;
  let '(ms, bad, _) := r in
  match g with
  | Perforce => Ok (ms, bad)
  | _ =>
      do r <- hunk_fuel normal_hunks lines (new_model [] []);
      let '(m, ls) := r in
      Ok (append_model ms m, (bad || negb (match ls with [] => true | _ => false end))%bool)
  end.

(** cvsdiffparser.cpp 30-64, diffparser.cpp 26-61, perforceparser.cpp 32-62 determineFormat: the first
    line that tells. *)
Definition line_format (g : generator) (l : str) : option format :=
  match g with
  | Perforce =>
      if at_start perforce_unified_re l then Some Unified
      else if at_start perforce_context_re l then Some Context
      else if at_start perforce_normal_re l then Some Normal
      else if at_start perforce_rcs_re l then Some RCS
      else None
  | _ =>
      let cvs := match g with CVSDiff => true | _ => false end in
      if at_start normal_re l then Some Normal
      else if at_start (if cvs then cvs_unified_re else diff_unified_re) l then Some Unified
      else if at_start (if cvs then cvs_context_re else diff_context_re) l then Some Context
      else if at_start rcs_re l then Some RCS
      else if at_start ed_re l then Some Ed
      else None
  end.
Fixpoint determine_format (g : generator) (ls : list str) : format :=
  match ls with
  | [] => UnknownFormat
  | l :: ls' => match line_format g l with Some f => f | None => determine_format g ls' end
  end.

(** parserbase.cpp 107-137 ParserBase::parse with 646-653, 694-701, 735-742 (sort; no models: null).
    parseEd and parseRCS (656-673, 704-721) find no header and return null. [sort] is std::sort with
    the model ordering (diffmodellist.cpp 11-19). *)
Definition base_parse (sort : list dmodel -> list dmodel) (g : generator) (lines : list str)
  : res (option (list dmodel) * bool) :=
  let finish (r : res (list dmodel * bool)) :=
    do r <- r;
    let '(ms, bad) := r in
    let ms := sort ms in
    Ok (match ms with [] => None | _ => Some ms end, bad) in
  match determine_format g lines with
  | Context => finish (parse_context g lines)
  | Normal => finish (parse_normal g lines)
  | Unified => finish (parse_unified g lines)
  | Ed | RCS | UnknownFormat => Ok (None, false)
  end.

(** * Parser (parser.cpp) *)
(** parser.cpp 27-48 cleanUpCrap. [done] are the lines already passed, last first. Erasing the first
    line and stepping back (37-40) is UB; truncate(-1) (41) empties the line. *)
Definition truncate_at_newline (l : str) : str :=
  match index_of NL l with Some i => firstn i l | None => [] end.
Fixpoint clean_loop (done ls : list str) (nol : Z) : res (list str * Z) :=
  match ls with
  | [] => Ok (rev done, nol)
  | l :: ls' =>
      if starts_with (lit "\ No newline") l then
        match done with
        | [] => UB "cleanUpCrap: step before begin()"
        | p :: done' => clean_loop (truncate_at_newline p :: done') ls' (nol + 1)
        end
      else clean_loop (l :: done) ls' nol
  end.
Definition clean_up_crap (ls : list str) : res (list str * Z) := clean_loop [] ls 0.
(** parser.cpp 91-113 determineGenerator. *)
Fixpoint determine_generator (ls : list str) : generator :=
  match ls with
  | [] => DiffDiff
  | l :: ls' => if starts_with (lit "Index: ") l then CVSDiff
                else if starts_with (lit "==== ") l then Perforce
                else determine_generator ls'
  end.
(** parser.cpp 50-89 parse: generator (of the lines as they come), the cleaned lines (the caller's list
    is changed), models or null, malformed. *)
Record parse_out := mk_po {
  po_generator : generator; po_format : format; po_lines : list str;
  po_models : option (list dmodel); po_malformed : bool }.
Definition parse (sort : list dmodel -> list dmodel) (lines : list str) : res parse_out :=
  let g := determine_generator lines in
  do r <- clean_up_crap lines;
  let '(lines, _) := r in
  do r <- base_parse sort g lines;
  let '(ms, bad) := r in
  Ok (mk_po g (determine_format g lines) lines ms bad).

(** modellist_p.cpp 20-43 split: lines with their terminator (33-36 the loop, 38-40 the rest; the text
    not yet split is the argument instead of an offset into the text). Each round takes at least one
    character, so the length of the text is enough fuel. *)
Fixpoint split_loop (fuel : nat) (s : str) : list str :=
  match index_of NL s with
  | Some pos =>
      match fuel with
      | O => []
      | S fuel => mid s 0 (pos + 1) :: split_loop fuel (skipn (pos + 1) s)
      end
  | None => if Nat.ltb 0 (length s) then [s] else []
  end.
Definition split_lines (s : str) : list str := split_loop (length s) s.
