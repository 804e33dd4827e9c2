(** Specification: markers that come in Start/End pairs but for the first range. *)
From Verif Require Import Base Lev SpecEdit.

(** The ranges behind the first one are Start/End pairs; so is the first one, unless it begins at the very beginning of the
    text: then its Start may be missing, or a surplus End may be inside it. The empty text may be marked as an empty range. *)
Inductive nearly_paired (ms : list marker) (len : nat) : Prop :=
| np_paired : paired ms len -> nearly_paired ms len
| np_no_start e rest : ms = mk_marker MEnd e :: rest -> 0 < e <= len -> paired_from (S e) rest len -> nearly_paired ms len
| np_two_ends x e rest : ms = mk_marker MStart 0 :: mk_marker MEnd x :: mk_marker MEnd e :: rest ->
    0 < x < e -> e <= len -> paired_from (S e) rest len -> nearly_paired ms len
| np_empty : len = 0 -> ms = [mk_marker MStart 0; mk_marker MEnd 0] -> nearly_paired ms len.
