(** Specification of a session: a patch between two texts, worked in or taken back change by change. *)
From Verif Require Import Base Diff SpecPatch SpecUnified.
Local Open Scope Z_scope.

(** [patches first s t A B hs]: the printed hunks turn the text A (numbered from s) into the text B (numbered
    from t): each stands where its line numbers say; outside the hunks, A and B are the same. Hunks do not
    touch: there is a common line between any two. *)
Inductive patches : bool -> Z -> Z -> list str -> list str -> list uhunk -> Prop :=
| pt_end f s t same : patches f s t same same []
| pt_hunk f s t same A B h hs :
    (f = false -> same <> []) -> uh_a h = s + count same -> uh_b h = t + count same ->
    patches false (uh_a h + src_count (uh_segs h)) (uh_b h + dst_count (uh_segs h)) A B hs ->
    patches f s t (same ++ concat (map src_lines (uh_segs h)) ++ A) (same ++ concat (map dst_lines (uh_segs h)) ++ B) (h :: hs).

Definition is_change (s : seg) : bool := match s with Ctx _ => false | Chg _ _ => true end.
Definition changes_in (h : uhunk) : nat := length (filter is_change (uh_segs h)).
Definition all_changes (hs : list uhunk) : nat := length (filter is_change (concat (map uh_segs hs))).
(** The lines of a hunk when, change by change, [true] keeps the old lines and [false] has the new ones. *)
Fixpoint pick (old : list bool) (ss : list seg) : list str :=
  match ss with
  | [] => []
  | Ctx ls :: ss' => ls ++ pick old ss'
  | Chg r a :: ss' =>
      match old with
      | f :: old' => (if f : bool then r else a) ++ pick old' ss'
      | [] => []
      end
  end.
(** [in_part s old A hs R]: R is A (numbered from s) with the hunks worked in, but for the changes that [old] keeps out. *)
Inductive in_part : Z -> list bool -> list str -> list uhunk -> list str -> Prop :=
| ip_end s same : in_part s [] same [] same
| ip_hunk s same A h hs f1 f2 R :
    uh_a h = s + count same -> length f1 = changes_in h ->
    in_part (uh_a h + src_count (uh_segs h)) f2 A hs R ->
    in_part s (f1 ++ f2) (same ++ concat (map src_lines (uh_segs h)) ++ A) (h :: hs) (same ++ pick f1 (uh_segs h) ++ R).
