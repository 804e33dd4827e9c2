(** Specification for C77: the line numbers of a diff are small enough for int. *)
From Coq Require Import String.
From Verif Require Import Base QtStr.
Local Open Scope Z_scope.

(** The greatest int. *)
Definition greatest : Z := 2147483647.
(** The number [a] stands in the header line of a hunk: -a or +a of a unified hunk, or the first number
    of a side of a context hunk. *)
Definition header_number (a l : str) : Prop :=
  exists x y, (l = lit "@@ -" ++ a ++ y \/ l = lit "@@ -" ++ x ++ lit " +" ++ a ++ y \/
               l = lit "*** " ++ a ++ lit "," ++ y \/ l = lit "--- " ++ a ++ lit "," ++ y).
(** The numbers of the hunk headers leave room for all lines of the text. *)
Definition modest (text : list str) : Prop :=
  Z.of_nat (length text) <= greatest /\
  forall l a, In l text -> header_number a l -> forallb is_digit a = true ->
    digits_value 0 a + Z.of_nat (length text) <= greatest.
