(** Base definitions shared by all model files: characters, strings, the result type. *)
From Coq Require Export List Arith ZArith NArith Lia Bool.
From Coq Require Import Ascii String.
Export ListNotations.

(** A QChar is one UTF-16 code unit; a QString is a list of them (QtCore, not in /repo). *)
Definition chr := N.
Definition str := list chr.

(** Literals: the ASCII text of a C++ string literal as a [str]. *)
Fixpoint lit (s : string) : str :=
  match s with
  | EmptyString => []
  | String a s' => N_of_ascii a :: lit s'
  end.

(** Outcome of a C++ computation. [UB] stands for undefined behaviour (invalid dereference,
    index outside a container, null or dangling pointer); [OutOfFuel] is used only by the
    transcription of loops and is excluded by the theorems. *)
Inductive res (A : Type) : Type :=
| Ok (a : A)
| UB (why : string)
| OutOfFuel.
Arguments Ok {A} a.
Arguments UB {A} why.
Arguments OutOfFuel {A}.

Definition bind {A B} (x : res A) (f : A -> res B) : res B :=
  match x with
  | Ok a => f a
  | UB w => UB w
  | OutOfFuel => OutOfFuel
  end.

Declare Scope res_scope.
Delimit Scope res_scope with res.
Notation "'do' x <- a ; b" := (bind a (fun x => b))
  (at level 200, x pattern, a at level 100, b at level 200, right associativity) : res_scope.
Open Scope res_scope.

(** Run a statement for every element of a list, in order (a C++ for loop). *)
Fixpoint for_each {A S} (l : list A) (body : A -> S -> res S) (s : S) : res S :=
  match l with
  | [] => Ok s
  | x :: l' => do s' <- body x s; for_each l' body s'
  end.

(** Equality tests. *)
Definition chr_eqb (a b : chr) : bool := N.eqb a b.
Fixpoint str_eqb (a b : str) : bool :=
  match a, b with
  | [], [] => true
  | x :: a', y :: b' => N.eqb x y && str_eqb a' b'
  | _, _ => false
  end.

(** Special characters. *)
Definition NL : chr := 10%N.
Definition TAB : chr := 9%N.
Definition SP : chr := 32%N.
Definition QUOTE : chr := 34%N.
Definition BSL : chr := 92%N.
Definition SLASH : chr := 47%N.
