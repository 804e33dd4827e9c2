(** Specification of inline (character) markers, of the table size limit, and of the strings a user can
    build. *)
From Verif Require Import Base Lev Diff SpecEdit.

(** Number of table entries for two sequences (virtual elements included). *)
Definition area {A} (a b : list A) : N := (N.of_nat (length a + 1) * N.of_nat (length b + 1))%N.
Definition limit : N := 16777216%N.

(** A pair of changed lines is marked correctly. [mp_fine] is for pairs that need fine-grained output
    (distance at most half the longer length), [mp_coarse] for the others. *)
Record marked_pair (a b : str) (m1 m2 : list marker) : Prop := {
  mp_plain : plain_text m1 a = plain_text m2 b;
  mp_ordered1 : offsets_ordered 0 m1 (length a);
  mp_ordered2 : offsets_ordered 0 m2 (length b);
  mp_fine : forall d, is_distance true a b d ->
    d <= Nat.div (Nat.max (length a + 1) (length b + 1)) 2 ->
    changed_count m1 a <= d /\ changed_count m2 b <= d /\ d <= changed_count m1 a + changed_count m2 b;
  mp_coarse : forall d, is_distance true a b d ->
    Nat.div (Nat.max (length a + 1) (length b + 1)) 2 < d ->
    plain_text m1 a = [] /\ plain_text m2 b = [] }.

(** A pair of lines whose table size does not wrap around. *)
Definition no_wrap (s d : dstr) : Prop := (area (ds_string s) (ds_string d) < 4294967296)%N.
(** The same string, possibly with other markers. *)
Definition same_text (s s' : dstr) : Prop := exists ms, s' = ds_set_markers ms s.

(** The DifferenceStrings that can be built from a QString with the class's setters. *)
Inductive built : dstr -> Prop :=
| built_new s : built (new_ds s)
| built_string s d : built d -> built (ds_set_string s d)
| built_conflict s d : built d -> built (ds_set_conflict s d)
| built_markers ms d : built d -> built (ds_set_markers ms d).
