(** Specification of edit distances and of how a list of markers is read. Independent of the model
    except for the marker data type itself. *)
From Verif Require Import Base Lev.

(** [edit sub a b k]: [a] can be turned into [b], going through both from left to right, with [k]
    single-element edits: keep (free), delete, insert, and - only if [sub] - replace. *)
Inductive edit {A : Type} (sub : bool) : list A -> list A -> nat -> Prop :=
| edit_nil : edit sub [] [] 0
| edit_keep x a b k : edit sub a b k -> edit sub (x :: a) (x :: b) k
| edit_del x a b k : edit sub a b k -> edit sub (x :: a) b (S k)
| edit_ins y a b k : edit sub a b k -> edit sub a (y :: b) (S k)
| edit_sub x y a b k : sub = true -> edit sub a b k -> edit sub (x :: a) (y :: b) (S k).

(** The distance is the least number of edits. *)
Definition is_distance {A} (sub : bool) (a b : list A) (d : nat) : Prop :=
  edit sub a b d /\ forall k, edit sub a b k -> d <= k.

(** Longest common subsequence. *)
Inductive subseq {A : Type} : list A -> list A -> Prop :=
| subseq_nil : subseq [] []
| subseq_skip x a b : subseq a b -> subseq a (x :: b)
| subseq_take x a b : subseq a b -> subseq (x :: a) (x :: b).

(** Reading markers: the text up to the first marker beyond a position decides; it is changed iff that
    marker is an End marker (this is how the viewer paints: text.mid(prev, offset - prev) is painted
    as changed iff the marker at [offset] is an End; text after the last marker is plain). *)
Definition changed (ms : list marker) (k : nat) : bool :=
  match find (fun m => Nat.ltb k (m_offset m)) ms with
  | Some (mk_marker MEnd _) => true
  | _ => false
  end.

(** The elements of [l] whose position is not changed / is changed, [l] starting at position [pos]. *)
Fixpoint plain_from {A} (ms : list marker) (pos : nat) (l : list A) : list A :=
  match l with
  | [] => []
  | x :: l' => if changed ms pos then plain_from ms (S pos) l' else x :: plain_from ms (S pos) l'
  end.
Fixpoint count_changed {A} (ms : list marker) (pos : nat) (l : list A) : nat :=
  match l with
  | [] => 0
  | _ :: l' => (if changed ms pos then 1 else 0) + count_changed ms (S pos) l'
  end.
Definition plain_text {A} (ms : list marker) (l : list A) : list A := plain_from ms 0 l.
Definition changed_count {A} (ms : list marker) (l : list A) : nat := count_changed ms 0 l.

(** Offsets never decrease and stay within [0..len]. *)
Fixpoint offsets_ordered (lo : nat) (ms : list marker) (len : nat) : Prop :=
  match ms with
  | [] => True
  | m :: ms' => lo <= m_offset m <= len /\ offsets_ordered (m_offset m) ms' len
  end.

(** A sequence of Start/End pairs delimiting non-empty ranges with at least one element between two
    ranges; [lo] is the least allowed start. *)
Fixpoint paired_from (lo : nat) (ms : list marker) (len : nat) : Prop :=
  match ms with
  | [] => True
  | mk_marker MStart s :: mk_marker MEnd e :: ms' =>
      lo <= s /\ s < e /\ e <= len /\ paired_from (S e) ms' len
  | _ => False
  end.
Definition paired (ms : list marker) (len : nat) : Prop := paired_from 0 ms len.
