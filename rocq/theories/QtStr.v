(** The parts of Qt's QString used by /repo/src (Qt is not part of /repo; these are its documented
    contracts). *)
From Coq Require Import String.
From Verif Require Import Base.

(** QString::startsWith. *)
Fixpoint starts_with (p s : str) : bool :=
  match p, s with
  | [], _ => true
  | _ :: _, [] => false
  | c :: p', d :: s' => N.eqb c d && starts_with p' s'
  end.
(** QString::endsWith(QChar). *)
Fixpoint ends_with_chr (c : chr) (s : str) : bool :=
  match s with
  | [] => false
  | [d] => N.eqb c d
  | _ :: s' => ends_with_chr c s'
  end.
(** QString::contains(QChar). *)
Fixpoint contains_chr (c : chr) (s : str) : bool :=
  match s with
  | [] => false
  | d :: s' => N.eqb c d || contains_chr c s'
  end.
(** QString::indexOf(QChar): None stands for -1. *)
Fixpoint index_of (c : chr) (s : str) : option nat :=
  match s with
  | [] => None
  | d :: s' => if N.eqb c d then Some 0
               else match index_of c s' with Some i => Some (S i) | None => None end
  end.
(** QString::lastIndexOf(QChar): None stands for -1. *)
Fixpoint last_index_of (c : chr) (s : str) : option nat :=
  match s with
  | [] => None
  | d :: s' => match last_index_of c s' with
               | Some i => Some (S i)
               | None => if N.eqb c d then Some 0 else None
               end
  end.
(** QString::mid(pos, n) for pos, n >= 0. *)
Definition mid (s : str) (pos n : nat) : str := firstn n (skipn pos s).
(** QString::replace(before, after), [before] not empty: non-overlapping occurrences from left to
    right. [k] counts the characters of an occurrence still to be dropped. *)
Fixpoint replace_aux (before after : str) (k : nat) (s : str) : str :=
  match s with
  | [] => []
  | c :: s' =>
      match k with
      | S k' => replace_aux before after k' s'
      | 0 => if starts_with before s
             then after ++ replace_aux before after (length before - 1) s'
             else c :: replace_aux before after 0 s'
      end
  end.
Definition replace (before after s : str) : str := replace_aux before after 0 s.

(** Decimal digits. *)
Definition is_digit (c : chr) : bool := (N.leb 48 c && N.leb c 57)%bool.
(** Value of a sequence of digits, most significant first. *)
Fixpoint digits_value (acc : Z) (s : str) : Z :=
  match s with
  | [] => acc
  | c :: s' => digits_value (acc * 10 + (Z.of_N c - 48)) s'
  end.
(** QString::toInt() of the digit strings the regular expressions capture: an empty string and a value
    above INT_MAX give 0 (documented: "Returns 0 if the conversion fails"). Strings with other
    characters are never passed (every capture is [0-9]+ or \d+); they give 0 here. *)
Definition to_int (s : str) : Z :=
  if (negb (Nat.eqb (length s) 0) && forallb is_digit s)%bool then
    let v := digits_value 0 s in
    if Z.leb v 2147483647 then v else 0
  else 0%Z.
(** QString::arg(int) / QString::number(int). *)
Fixpoint number_aux (fuel : nat) (n : Z) (acc : str) : str :=
  match fuel with
  | 0 => acc
  | S fuel =>
      let acc := Z.to_N (48 + n mod 10) :: acc in
      if Z.ltb n 10 then acc else number_aux fuel (n / 10) acc
  end.
Definition number (n : Z) : str :=
  if Z.ltb n 0 then 45%N :: number_aux (S (Z.to_nat (Z.log2_up (- n)))) (- n) []
  else number_aux (S (Z.to_nat (Z.log2_up (n + 1)))) n [].

(** The text of a list of lines. *)
Definition concat_str (l : list str) : str := concat l.
