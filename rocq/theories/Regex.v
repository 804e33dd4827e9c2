(** Regular expressions as QRegularExpression (PCRE2) matches them: leftmost-first backtracking.
    QtCore and PCRE2 are not part of /repo; this is the documented matching order. Only the constructs
    the patterns of /repo use are here. Simplifications: one code unit is one character (a surrogate
    pair counts as two), and PCRE's match limit (an internal cut-off on backtracking) is ignored. *)
From Coq Require Import String.
From Verif Require Import Base QtStr.

Inductive re :=
| REps                                  (* empty *)
| RChr (p : chr -> bool)                (* one character of a class *)
| RSeq (a b : re)                       (* ab *)
| RAlt (a b : re)                       (* a|b, a is tried first *)
| RStar (greedy : bool) (a : re)        (* a* (greedy) or a*? (lazy) *)
| RGroup (n : nat) (a : re).            (* capturing group number n *)

(** Captures: the text of each group that took part in the match. *)
Definition caps := list (nat * str).
Fixpoint captured (n : nat) (c : caps) : str :=
  match c with
  | [] => []                            (* a group that did not match gives a null string *)
  | (k, s) :: c' => if Nat.eqb n k then s else captured n c'
  end.

(** [matches a k s c]: match [a] at the beginning of [s], then go on with [k] on the remaining text;
    if that fails, take the next way to match [a]. An iteration of a star must consume something. *)
Fixpoint matches {R} (a : re) (k : str -> caps -> option R) (s : str) (c : caps) : option R :=
  match a with
  | REps => k s c
  | RChr p => match s with
              | x :: s' => if p x then k s' c else None
              | [] => None
              end
  | RSeq a b => matches a (matches b k) s c
  | RAlt a b => match matches a k s c with
                | Some r => Some r
                | None => matches b k s c
                end
  | RStar greedy a =>
      (fix star (n : nat) (s : str) (c : caps) : option R :=
         match n with
         | 0 => k s c
         | S n' =>
             if greedy then
               match matches a (fun s' c' => if Nat.ltb (length s') (length s) then star n' s' c' else None) s c with
               | Some r => Some r
               | None => k s c
               end
             else
               match k s c with
               | Some r => Some r
               | None => matches a (fun s' c' => if Nat.ltb (length s') (length s) then star n' s' c' else None) s c
               end
         end) (length s) s c
  | RGroup n a => matches a (fun s' c' => k s' ((n, firstn (length s - length s') s) :: c')) s c
  end.

(** QRegularExpression::match with an anchoredPattern (\A(?:...)\z): the whole text has to match. *)
Definition full_match (a : re) (s : str) : option caps :=
  matches a (fun s' c => match s' with [] => Some c | _ :: _ => None end) s [].
(** QString::indexOf(re, 0) == 0: there is a match at the beginning (a leading ^ changes nothing). *)
Definition at_start (a : re) (s : str) : bool :=
  match matches a (fun _ c => Some c) s [] with Some _ => true | None => false end.
Definition has_match (a : re) (s : str) : bool :=
  match full_match a s with Some _ => true | None => false end.

(** Notation for patterns. *)
Definition is (c : chr) : re := RChr (N.eqb c).
Fixpoint text (l : str) : re :=
  match l with
  | [] => REps
  | c :: l' => RSeq (is c) (text l')
  end.
Definition any : re := RChr (fun x => negb (N.eqb x NL)).        (* . *)
Definition not_chr (c : chr) : re := RChr (fun x => negb (N.eqb x c)).  (* [^c] *)
Definition digit : re := RChr is_digit.                          (* [0-9] and \d *)
Definition one_of (l : str) : re := RChr (fun x => existsb (N.eqb x) l).
Definition star (a : re) : re := RStar true a.
Definition plus (a : re) : re := RSeq a (RStar true a).
Definition opt (a : re) : re := RAlt a REps.                     (* a? *)
Notation "a ~~ b" := (RSeq a b) (at level 65, right associativity).
