(** The line number arithmetic of the parsers in C++ ints: the functions of Parser.v once more, where
    every ++, -- and + on an int is checked; a result outside the range of int is undefined behaviour.
    What does no such arithmetic (headers, patterns, the normal format) is taken from Parser.v. *)
From Coq Require Import String.
From Verif Require Import Base QtStr Lev Diff Regex Patterns Parser.
Local Open Scope Z_scope.

(** The range of int on the platforms of Qt (32 bits). *)
Definition INT_MAX : Z := 2147483647.
Definition in_int (z : Z) : bool := (Z.leb (- INT_MAX - 1) z && Z.leb z INT_MAX)%bool.
Definition int_of (z : Z) : res Z := if in_int z then Ok z else UB "signed integer overflow".

(** parserbase.cpp 587-594: ++linenoA; ++linenoB; --lineCountA; --lineCountB. *)
Fixpoint take_context_int (ls : list str) (a b ca cb : Z) (d : difference) : res (difference * ucursor) :=
  match ls with
  | l :: ls' =>
      if (starts_with [SP] l && counting ca cb)%bool
      then
        do a <- int_of (a + 1);
        do b <- int_of (b + 1);
        do ca <- int_of (ca - 1);
        do cb <- int_of (cb - 1);
        take_context_int ls' a b ca cb (add_destination_line (skipn 1 l) (add_source_line (skipn 1 l) d))
      else Ok (d, mk_uc ls a b ca cb)
  | [] => Ok (d, mk_uc [] a b ca cb)
  end.
(** parserbase.cpp 596-600: ++linenoA; --lineCountA. *)
Fixpoint take_removed_int (ls : list str) (a b ca cb : Z) (d : difference) : res (difference * ucursor) :=
  match ls with
  | l :: ls' =>
      if (starts_with [45%N] l && counting ca cb)%bool
      then
        do a <- int_of (a + 1);
        do ca <- int_of (ca - 1);
        take_removed_int ls' a b ca cb (add_source_line (skipn 1 l) d)
      else Ok (d, mk_uc ls a b ca cb)
  | [] => Ok (d, mk_uc [] a b ca cb)
  end.
(** parserbase.cpp 601-605: ++linenoB; --lineCountB. *)
Fixpoint take_added_int (ls : list str) (a b ca cb : Z) (d : difference) : res (difference * ucursor) :=
  match ls with
  | l :: ls' =>
      if (starts_with [43%N] l && counting ca cb)%bool
      then
        do b <- int_of (b + 1);
        do cb <- int_of (cb - 1);
        take_added_int ls' a b ca cb (add_destination_line (skipn 1 l) d)
      else Ok (d, mk_uc ls a b ca cb)
  | [] => Ok (d, mk_uc [] a b ca cb)
  end.
(** parserbase.cpp 582-619. *)
Fixpoint unified_body_loop_int (fuel : nat) (c : ucursor) : res (list difference * list str) :=
  match fuel with
  | O => OutOfFuel
  | S fuel =>
      match uc_rest c with
      | [] => Ok ([], [])
      | l :: _ =>
          do is_line <- matches_unified_hunk_line l;
          if (is_line && counting (uc_ca c) (uc_cb c))%bool then
            let d := new_diff (uc_a c) (uc_b c) Unchanged in
            if starts_with [SP] l then
              do r <- take_context_int (uc_rest c) (uc_a c) (uc_b c) (uc_ca c) (uc_cb c) d;
              let '(d, c) := r in
              do r <- unified_body_loop_int fuel c;
              let '(ds, rest) := r in
              Ok (d :: ds, rest)
            else
              do r <- take_removed_int (uc_rest c) (uc_a c) (uc_b c) (uc_ca c) (uc_cb c) d;
              let '(d, c) := r in
              do r <- take_added_int (uc_rest c) (uc_a c) (uc_b c) (uc_ca c) (uc_cb c) d;
              let '(d, c) := r in
              let d := if Nat.eqb (length (d_slines d)) 0 then set_type Insert d
                       else if Nat.eqb (length (d_dlines d)) 0 then set_type Delete d
                       else set_type Change d in
              do d <- determine_inline d;
              do r <- unified_body_loop_int fuel c;
              let '(ds, rest) := r in
              Ok (d :: ds, rest)
          else Ok ([], uc_rest c)
      end
  end.
(** parserbase.cpp 550-571: ++linenoA, ++linenoB when the count is zero. *)
Definition hunk_side_int (num cnt : str) : res (option (Z * Z)) :=
  let n := to_int num in
  match cnt with
  | [] => Ok (Some (n, 1))
  | _ => match to_int_opt cnt with
         | None => Ok None
         | Some k =>
             do n <- (if Z.eqb k 0 then int_of (n + 1) else Ok n);
             Ok (Some (n, k))
         end
  end.
(** parserbase.cpp 542-622. *)
Definition unified_hunk_body_int (c : caps) (ls : list str) (m : dmodel) : res (dmodel * list str) :=
  do s <- hunk_side_int (captured 1 c) (captured 3 c);
  match s with
  | None => Ok (m, ls)
  | Some (a, ca) =>
      do s <- hunk_side_int (captured 4 c) (captured 6 c);
      match s with
      | None => Ok (m, ls)
      | Some (b, cb) =>
          do r <- unified_body_loop_int (S (length ls)) (mk_uc ls a b ca cb);
          let '(ds, rest) := r in
          do m <- add_parsed_hunk m a b (captured 7 c) ds;
          Ok (m, rest)
      end
  end.
(** parserbase.cpp 726-727. *)
Fixpoint unified_hunks_int (fuel : nat) (ls : list str) (m : dmodel) : res (dmodel * list str) :=
  match fuel with
  | O => OutOfFuel
  | S fuel =>
      match unified_hunk_header_at ls with
      | None => Ok (m, ls)
      | Some (c, ls) =>
          do r <- unified_hunk_body_int c ls m;
          let '(m, ls) := r in
          unified_hunks_int fuel ls m
      end
  end.

(** parserbase.cpp 369-458. The numbers grow by one per line read (380, 396, 412-413, 438, 448); they
    start inside the range, so they stay inside it in between if they are inside it in the end. *)
Fixpoint context_body_loop_int (fuel : nat) (a b : Z) (old new : list str) : res (list difference) :=
  match fuel with
  | O => OutOfFuel
  | S fuel =>
      match old, new with
      | [], [] => Ok []
      | _, _ =>
          if starts_matching context_removed old then
            let '(ts, old) := take_matching context_removed old in
            do a' <- int_of (a + Z.of_nat (length ts));
            do d <- determine_inline (with_texts ts [] (new_diff a b Delete));
            do ds <- context_body_loop_int fuel a' b old new;
            Ok (d :: ds)
          else if starts_matching context_added new then
            let '(ts, new) := take_matching context_added new in
            do b' <- int_of (b + Z.of_nat (length ts));
            do d <- determine_inline (with_texts [] ts (new_diff a b Insert));
            do ds <- context_body_loop_int fuel a b' old new;
            Ok (d :: ds)
          else if (end_or_context old && end_or_context new)%bool then
            let '(ts, old, new) := take_both (length old + length new) old new in
            do a' <- int_of (a + Z.of_nat (length ts));
            do b' <- int_of (b + Z.of_nat (length ts));
            do d <- determine_inline (with_texts ts ts (new_diff a b Unchanged));
            do ds <- context_body_loop_int fuel a' b' old new;
            Ok (d :: ds)
          else if (starts_matching context_changed old || starts_matching context_changed new)%bool then
            let '(ts1, old) := take_matching context_changed old in
            let '(ts2, new) := take_matching context_changed new in
            do a' <- int_of (a + Z.of_nat (length ts1));
            do b' <- int_of (b + Z.of_nat (length ts2));
            do d <- determine_inline (with_texts ts1 ts2 (new_diff a b Change));
            do ds <- context_body_loop_int fuel a' b' old new;
            Ok (d :: ds)
          else Ok []
      end
  end.
(** parserbase.cpp 330-461. *)
Definition context_hunk_body_int (c1 c2 : caps) (ls : list str) (m : dmodel) : res (dmodel * list str) :=
  let '(old, ls) := take_context_lines ls in
  match ls with
  | [] => UB "parseContextHunkBody: dereference of end()"
  | l :: ls' =>
      match full_match context_hunk_header3 l with
      | None => Ok (m, ls)
      | Some c3 =>
          let '(new, rest) := take_context_lines ls' in
          let a := to_int (captured 1 c2) in
          let b := to_int (captured 1 c3) in
          do ds <- context_body_loop_int (S (length old + length new)) a b old new;
          do m <- add_parsed_hunk m a b (captured 1 c1) ds;
          Ok (m, rest)
      end
  end.
(** parserbase.cpp 639-640. *)
Fixpoint context_hunks_int (fuel : nat) (ls : list str) (m : dmodel) : res (dmodel * list str) :=
  match fuel with
  | O => OutOfFuel
  | S fuel =>
      match context_hunk_header_at ls with
      | (None, ls) => Ok (m, ls)
      | (Some (c1, c2), ls) =>
          do r <- context_hunk_body_int c1 c2 ls m;
          let '(m, ls) := r in
          context_hunks_int fuel ls m
      end
  end.

(** parserbase.cpp 723-733. *)
Definition parse_unified_int (g : generator) (lines : list str) : res (list dmodel * bool) :=
  do r <- files (unified_head_of g) (hunk_fuel unified_hunks_int) (unified_header1_of g)
            (S (length lines)) lines [] false;
  let '(ms, bad, _) := r in Ok (ms, bad).
(** parserbase.cpp 636-644. *)
Definition parse_context_int (g : generator) (lines : list str) : res (list dmodel * bool) :=
  do r <- files (context_head_of g) (hunk_fuel context_hunks_int) (context_header1_of g)
            (S (length lines)) lines [] false;
  let '(ms, bad, _) := r in Ok (ms, bad).
(** parserbase.cpp 107-137 (with 646-653, 694-701, 735-742). *)
Definition base_parse_int (sort : list dmodel -> list dmodel) (g : generator) (lines : list str)
  : res (option (list dmodel) * bool) :=
  let finish (r : res (list dmodel * bool)) :=
    do r <- r;
    let '(ms, bad) := r in
    let ms := sort ms in
    Ok (match ms with [] => None | _ => Some ms end, bad) in
  match determine_format g lines with
  | Context => finish (parse_context_int g lines)
  | Normal => finish (parse_normal g lines)
  | Unified => finish (parse_unified_int g lines)
  | Ed | RCS | UnknownFormat => Ok (None, false)
  end.
(** parser.cpp 27-48: ++nol. *)
Fixpoint clean_loop_int (done ls : list str) (nol : Z) : res (list str * Z) :=
  match ls with
  | [] => Ok (rev done, nol)
  | l :: ls' =>
      if starts_with (lit "\ No newline") l then
        match done with
        | [] => UB "cleanUpCrap: step before begin()"
        | p :: done' =>
            do nol <- int_of (nol + 1);
            clean_loop_int (truncate_at_newline p :: done') ls' nol
        end
      else clean_loop_int (l :: done) ls' nol
  end.
(** parser.cpp 50-89. *)
Definition parse_int (sort : list dmodel -> list dmodel) (lines : list str) : res parse_out :=
  let g := determine_generator lines in
  do r <- clean_loop_int [] lines 0;
  let '(lines, _) := r in
  do r <- base_parse_int sort g lines;
  let '(ms, bad) := r in
  Ok (mk_po g (determine_format g lines) lines ms bad).
