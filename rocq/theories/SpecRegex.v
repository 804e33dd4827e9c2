(** The language of a regular expression, in the usual way. *)
From Verif Require Import Base Regex.

Inductive lang : re -> str -> Prop :=
| l_eps : lang REps []
| l_chr p x : p x = true -> lang (RChr p) [x]
| l_seq a b u v : lang a u -> lang b v -> lang (RSeq a b) (u ++ v)
| l_alt1 a b u : lang a u -> lang (RAlt a b) u
| l_alt2 a b u : lang b u -> lang (RAlt a b) u
| l_star0 g a : lang (RStar g a) []
| l_star g a u v : lang a u -> lang (RStar g a) v -> lang (RStar g a) (u ++ v)
| l_group n a u : lang a u -> lang (RGroup n a) u.
