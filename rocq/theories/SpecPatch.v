(** Specification of a list of differences as a patch between two texts. *)
From Verif Require Import Base Lev Diff SpecEdit SpecInline.
Local Open Scope Z_scope.

Definition lines_of (l : list dstr) : list str := map ds_string l.
(** The lines a difference contributes to the edited text. *)
Definition shown (d : difference) : list str :=
  if d_applied d then lines_of (d_dlines d) else lines_of (d_slines d).
Definition count {A} (l : list A) : Z := Z.of_nat (length l).

(** [describes s t S D ds]: going through the source lines S (numbered from s) and the text D (numbered
    from t), the differences ds stand in order; between them both texts are the same, and each difference
    has its source line number and its tracking number where it really stands, its source lines in S and
    its shown lines (destination lines if applied, source lines if not) in D. *)
Inductive describes : Z -> Z -> list str -> list str -> list difference -> Prop :=
| desc_end s t same : describes s t same same []
| desc_diff s t same S D d ds :
    d_src d = s + count same -> d_track d = t + count same ->
    describes (s + count same + count (d_slines d)) (t + count same + count (shown d)) S D ds ->
    describes s t (same ++ lines_of (d_slines d) ++ S) (same ++ shown d ++ D) (d :: ds).

(** Unapplied differences that change the number of lines must keep clear of the edit: start after the
    edited line, or end before it without being the last difference. *)
Definition harmless (edit : Z) (ds : list difference) : Prop :=
  forall pre d post, ds = pre ++ d :: post -> d_applied d = false ->
    count (d_slines d) = count (d_dlines d) \/ edit < d_track d \/
    (d_track d + count (d_slines d) < edit /\ d_track d + count (d_dlines d) < edit /\ post <> []).

(** The applied differences that touch or adjoin the edited lines, and the size of the region. *)
Definition touched (edit edit_end : Z) (d : difference) : bool :=
  (d_applied d && Z.leb edit (d_track d + count (d_dlines d)) && Z.leb (d_track d) edit_end)%bool.
Fixpoint total {A} (f : A -> Z) (l : list A) : Z :=
  match l with [] => 0 | x :: l' => f x + total f l' end.
Definition region_fits (ds : list difference) (old new : list str) (edit : Z) : Prop :=
  let t := filter (touched edit (edit + count old)) ds in
  (count old + total (fun d => count (d_slines d)) t + 1) * (count new + total (fun d => count (d_dlines d)) t + 1) <= Z.of_N limit.
(** No line is longer than the character tables can index. *)
Definition short (l : str) : Prop := count l < 65535.

(** A difference as an editor wants it: a real change whose type says what it is. *)
Definition proper (d : difference) : Prop :=
  match d_type d with
  | Change => d_slines d <> [] /\ d_dlines d <> []
  | Insert => d_slines d = [] /\ d_dlines d <> []
  | Delete => d_slines d <> [] /\ d_dlines d = []
  | Unchanged => False
  end.
Definition new_number (d : difference) : Prop := d_applied d = true /\ d_dst d = d_track d /\ proper d.
(** Moved by [delta] lines, all else equal. *)
Definition moved (delta : Z) (d : difference) : difference := set_track (d_track d + delta) d.
