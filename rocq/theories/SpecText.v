(** Specification of line splitting and of path components. *)
From Verif Require Import Base.

(** [ls] are the lines of the text [s], each with its terminator. *)
Record lines_of_text (s : str) (ls : list str) : Prop := {
  lt_whole : concat ls = s;
  lt_nonempty : Forall (fun l => l <> []) ls;
  lt_newline : forall l pre post, In l ls -> l = pre ++ NL :: post -> post = [];
  lt_terminated : forall pre l post, ls = pre ++ l :: post -> post <> [] -> exists t, l = t ++ [NL] }.

(** What remains of a path without its [n] leading components, if it has them. *)
Inductive without_components : nat -> str -> str -> Prop :=
| wc_all p : without_components 0 p p
| wc_one n c p r : ~ In SLASH c -> without_components n p r -> without_components (S n) (c ++ SLASH :: p) r.
