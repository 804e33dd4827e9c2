(** Specification of sequences of setter calls: what was set last. *)
From Verif Require Import Base.
(** The argument of the last call that has one, or what there was at first. *)
Definition last_of {A B} (arg : A -> option B) (first : B) (calls : list A) : B :=
  fold_left (fun b a => match arg a with Some b' => b' | None => b end) calls first.
(** The arguments of all calls that have one, in order. *)
Definition all_of {A B} (arg : A -> option B) (calls : list A) : list B :=
  concat (map (fun a => match arg a with Some b => [b] | None => [] end) calls).
