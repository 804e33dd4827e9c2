(** Model of src/levenshteintable.h, src/differencestringpair.h, src/stringlistpair.cpp. *)
From Coq Require Import FMapPositive String.
From Verif Require Import Base.

(** marker.h 23-71: a marker is a type and an offset. *)
Inductive mtype := MStart | MEnd.
Record marker := mk_marker { m_type : mtype; m_offset : nat }.

(** The interface LevenshteinTable<SequencePair> needs (levenshteintable.h 24-28 and its uses of SequencePair).
    Lengths are those *with* the virtual first element. *)
Record seqpair := mk_pair {
  sp_m : nat;                        (* lengthFirst() *)
  sp_n : nat;                        (* lengthSecond() *)
  sp_equal : nat -> nat -> res bool; (* equal(i, j) *)
  sp_replace : bool;                 (* allowReplace *)
  sp_fine : nat -> bool              (* needFineGrainedOutput(difference) *)
}.

(** differencestringpair.h 21-79: both strings are prefixed with one blank;
    [equal] indexes the two arrays. *)
Definition string_pair (a b : str) : seqpair :=
  let sa := SP :: a in
  let sb := SP :: b in
  {| sp_m := length sa;
     sp_n := length sb;
     sp_equal := fun i j =>
       match nth_error sa i, nth_error sb j with
       | Some x, Some y => Ok (chr_eqb x y)
       | _, _ => UB "DifferenceStringPair::equal index"
       end;
     sp_replace := true;
     sp_fine := fun d => Nat.leb d (Nat.div (Nat.max (length sa) (length sb)) 2) |}.

(** stringlistpair.cpp 44-79; [qhash] is Qt's qHash(QString), any function. *)
Definition lines_pair (qhash : str -> N) (a b : list str) : seqpair :=
  let ha := qhash [] :: map qhash a in
  let hb := qhash [] :: map qhash b in
  {| sp_m := length a + 1;
     sp_n := length b + 1;
     sp_equal := fun i j =>
       match nth_error ha i, nth_error hb j with
       | Some h1, Some h2 =>
           if negb (N.eqb h1 h2) then Ok false
           else if Nat.eqb i 0 || Nat.eqb j 0 then Ok (Nat.eqb i 0 && Nat.eqb j 0)
           else match nth_error a (i - 1), nth_error b (j - 1) with
                | Some x, Some y => Ok (str_eqb x y)
                | _, _ => UB "StringListPair::equal index"
                end
       | _, _ => UB "StringListPair::equal hash index"
       end;
     sp_replace := false;
     sp_fine := fun _ => true |}.

(** The table object (levenshteintable.h 66-71). [t_size] is the number of allocated entries
    (m_size = m_table.size()); entries never written are 0 (std::vector value-initialises), so the
    vector is a finite map with default 0. Entry values are at most width+height and never wrap, so
    they are [nat]. *)
Record table := mk_table {
  t_w : N; t_h : N; t_size : N; t_cells : PositiveMap.t nat }.

(** unsigned int arithmetic wraps modulo 2^32. *)
Definition u32 (n : N) : N := N.modulo n 4294967296.

(** levenshteintable.h 74-79: default constructor, a 256x256 table. *)
Definition new_table : table := mk_table 256 256 65536 (PositiveMap.empty nat).

(** levenshteintable.h 90-95 getContent, 97-103 setContent: the index posY*m_width+posX is computed
    in unsigned int; std::vector::operator[] outside the allocation is UB. *)
Definition cell_index (t : table) (x y : nat) : N :=
  u32 (u32 (N.of_nat y * t_w t) + N.of_nat x).
Definition get_content (t : table) (x y : nat) : res nat :=
  let i := cell_index t x y in
  if N.ltb i (t_size t)
  then Ok (match PositiveMap.find (N.succ_pos i) (t_cells t) with Some v => v | None => 0 end)
  else UB "LevenshteinTable::getContent out of bounds".
Definition set_content (t : table) (x y v : nat) : res table :=
  let i := cell_index t x y in
  if N.ltb i (t_size t)
  then Ok (mk_table (t_w t) (t_h t) (t_size t) (PositiveMap.add (N.succ_pos i) v (t_cells t)))
  else UB "LevenshteinTable::setContent out of bounds".

(** levenshteintable.h 105-121 setSize; None = "return false". *)
Definition set_size (t : table) (w h : nat) : option table :=
  let area := u32 (N.of_nat w * N.of_nat h) in
  if N.ltb 16777216 area then None
  else Some (mk_table (N.of_nat w) (N.of_nat h)
               (if N.ltb (t_size t) area then area else t_size t) (t_cells t)).

(** levenshteintable.h 135-174 createTable: the inner assignment of one cell (160-169). *)
Definition fill_cell (p : seqpair) (j i : nat) (t : table) : res table :=
  do eq <- sp_equal p i j;
  let cost := if eq then 0 else if sp_replace p then 1 else 2 in
  do n <- get_content t i (j - 1);
  do w <- get_content t (i - 1) j;
  do nw <- get_content t (i - 1) (j - 1);
  set_content t i j (Nat.min (n + 1) (Nat.min (w + 1) (nw + cost))).

(** levenshteintable.h 148-171: first row, first column, then row by row. *)
Definition fill_table (p : seqpair) (t : table) : res table :=
  let m := sp_m p in
  let n := sp_n p in
  do t <- for_each (seq 0 m) (fun i t => set_content t i 0 i) t;
  do t <- for_each (seq 0 n) (fun j t => set_content t 0 j j) t;
  for_each (seq 1 (n - 1)) (fun j t =>
    for_each (seq 1 (m - 1)) (fun i t => fill_cell p j i t) t) t.

(** levenshteintable.h 135-174: createTable returns the distance, 0 if setSize refused. *)
Definition create_table (t : table) (p : seqpair) : res (nat * table) :=
  match set_size t (sp_m p) (sp_n p) with
  | None => Ok (0, t)
  | Some t =>
      do t <- fill_table p t;
      do d <- get_content t (sp_m p - 1) (sp_n p - 1);
      Ok (d, t)
  end.

(** levenshteintable.h 176-191 chooseRoute: c1 north, c2 northwest, c3 west. *)
Inductive dir := North | NorthWest | West.
Definition choose_route (replace : bool) (c1 c2 c3 cur : nat) : dir :=
  if (Nat.leb c2 c1 && Nat.leb c2 c3) && (replace || Nat.eqb c2 cur) then NorthWest
  else if Nat.leb c3 c2 && Nat.leb c3 c1 then West
  else North.

(** levenshteintable.h 232-246 (and 257-271, 273-287, 296-310): put a marker on one list, given
    the neighbouring value [v], the current value [cur] and the position [pos]. *)
Definition mark (ms : list marker) (v cur pos : nat) : list marker :=
  match ms with
  | mk_marker MEnd _ :: _ => if Nat.eqb v cur then mk_marker MStart pos :: ms else ms
  | _ => if Nat.ltb v cur then mk_marker MEnd pos :: ms else ms
  end.

(** levenshteintable.h 219-318: the walk back through the table. State: x, y and the two marker
    lists (prepended to). *)
Fixpoint walk (fuel : nat) (replace : bool) (t : table) (x y : nat) (m1 m2 : list marker)
  : res (nat * nat * list marker * list marker) :=
  match fuel with
  | 0 => OutOfFuel
  | S fuel =>
      if Nat.ltb 0 x && Nat.ltb 0 y then
        do cur <- get_content t x y;
        do n <- get_content t x (y - 1);
        do w <- get_content t (x - 1) y;
        do nw <- get_content t (x - 1) (y - 1);
        match choose_route replace n nw w cur with
        | North =>
            let m2 := mark m2 n cur y in
            let y := y - 1 in
            let m2 := if Nat.eqb y 0 then mk_marker MStart 0 :: m2 else m2 in
            walk fuel replace t x y m1 m2
        | NorthWest =>
            let m2 := mark m2 nw cur y in
            let m1 := mark m1 nw cur x in
            walk fuel replace t (x - 1) (y - 1) m1 m2
        | West =>
            let m1 := mark m1 w cur x in
            let x := x - 1 in
            let m1 := if Nat.eqb x 0 then mk_marker MStart 0 :: m1 else m1 in
            walk fuel replace t x y m1 m2
        end
      else Ok (x, y, m1, m2)
  end.

(** levenshteintable.h 193-330: createListsOfMarkers, starting from the lists already there
    (m1, m2). [w], [h] are m_width and m_height. *)
Definition create_markers (t : table) (p : seqpair) (m1 m2 : list marker)
  : res (list marker * list marker) :=
  let x := N.to_nat (t_w t) - 1 in
  let y := N.to_nat (t_h t) - 1 in
  do d <- get_content t x y;
  if negb (sp_fine p d) then
    Ok (mk_marker MStart 0 :: mk_marker MEnd x :: m1,
        mk_marker MStart 0 :: mk_marker MEnd y :: m2)
  else
    do r <- walk (S (x + y)) (sp_replace p) t x y m1 m2;
    let '(x, y, m1, m2) := r in
    let m1 := if Nat.eqb x 0 then m1 else mk_marker MStart 0 :: mk_marker MEnd x :: m1 in
    let m2 := if Nat.eqb y 0 then m2 else mk_marker MStart 0 :: mk_marker MEnd y :: m2 in
    Ok (m1, m2).
