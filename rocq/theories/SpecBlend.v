(** Specification of blending: the hunks of a model between two whole files. *)
From Verif Require Import Base Diff SpecPatch SpecParse.
Local Open Scope Z_scope.

(** A hunk with its differences. *)
Definition filled := (hunk * list difference)%type.
Definition old_lines (ds : list difference) : list str := concat (map (fun d => lines_of (d_slines d)) ds).
Definition new_lines (ds : list difference) : list str := concat (map (fun d => lines_of (d_dlines d)) ds).
(** Each difference starts right where the previous one ended, in both files. *)
Fixpoint standing (a b : Z) (ds : list difference) : Prop :=
  match ds with
  | [] => True
  | d :: ds' => d_src d = a /\ d_dst d = b /\ standing (a + count (d_slines d)) (b + count (d_dlines d)) ds'
  end.

(** [turns s t A B hs]: the hunks turn the lines A (numbered from s) into the lines B (numbered from t):
    they stand in order, where their line numbers say, with their source lines in A and their destination
    lines in B; between them, before the first and after the last, A and B are the same. *)
Inductive turns : Z -> Z -> list str -> list str -> list filled -> Prop :=
| tu_end s t same : turns s t same same []
| tu_hunk s t same A B h ds hs :
    h_src h = s + count same -> h_dst h = t + count same -> standing (h_src h) (h_dst h) ds ->
    turns (h_src h + count (old_lines ds)) (h_dst h + count (new_lines ds)) A B hs ->
    turns s t (same ++ old_lines ds ++ A) (same ++ new_lines ds ++ B) ((h, ds) :: hs).

(** Hunks without gaps: each starts where the one before ended, in both files. *)
Fixpoint gapless (s t : Z) (hs : list filled) : Prop :=
  match hs with
  | [] => True
  | (h, ds) :: hs' => h_src h = s /\ h_dst h = t /\ standing s t ds /\
                      gapless (s + count (old_lines ds)) (t + count (new_lines ds)) hs'
  end.
Definition original (p : filled) : bool := match h_type (fst p) with HNormal => true | HAddedByBlend => false end.
(** A hunk of common lines, with one difference that cannot be applied. *)
Definition common (p : filled) : Prop :=
  exists d, snd p = [d] /\ h_function (fst p) = [] /\ h_src (fst p) = d_src d /\ h_dst (fst p) = d_dst d /\
    d_type d = Unchanged /\ d_track d = d_src d /\ lines_of (d_slines d) = lines_of (d_dlines d) /\ pristine d.

(** The lines that a save keeps of a difference, and of a list of differences of which [fs] tells which of
    the changes are applied. *)
Definition kept (d : difference) : list str := if d_applied d then lines_of (d_slines d) else lines_of (d_dlines d).
Fixpoint choose (fs : list bool) (ds : list difference) : list str :=
  match ds with
  | [] => []
  | d :: ds' =>
      if is_context d then lines_of (d_dlines d) ++ choose fs ds'
      else match fs with
           | f :: fs' => (if f : bool then lines_of (d_slines d) else lines_of (d_dlines d)) ++ choose fs' ds'
           | [] => []
           end
  end.

(** [partly s fs A hs R]: R is the text A (numbered from s) with the hunks worked in, except that the applied
    changes, as told by [fs], are left as in A. *)
Inductive partly : Z -> list bool -> list str -> list filled -> list str -> Prop :=
| pa_end s same : partly s [] same [] same
| pa_hunk s same A h ds hs f1 f2 R :
    h_src h = s + count same -> length f1 = length (filter (fun d => negb (is_context d)) ds) ->
    partly (h_src h + count (old_lines ds)) f2 A hs R ->
    partly s (f1 ++ f2) (same ++ old_lines ds ++ A) ((h, ds) :: hs) (same ++ choose f1 ds ++ R).
(** Context lines are the same on both sides and are not applied. *)
Definition context_same (hs : list filled) : Prop :=
  Forall (fun d => is_context d = true -> d_applied d = false /\ lines_of (d_slines d) = lines_of (d_dlines d)) (concat (map snd hs)).

(** Everything but hunks, the objects and the blended mark. *)
Definition same_but_hunks (m m' : dmodel) : Prop :=
  with_blended (with_contents m' [] (dm_diffs m') []) false = with_blended (with_contents m [] (dm_diffs m) []) false.
(** [filled_in lines hs out]: [out] is [hs] with added hunks of common lines between. Going through the lines
    of a file, each line is in an added hunk or is passed over for a hunk that has so many source lines. *)
Inductive filled_in : list str -> list filled -> list filled -> Prop :=
| fi_end : filled_in [] [] []
| fi_keep p skipped lines hs out :
    length skipped = length (old_lines (snd p)) \/ (length skipped < length (old_lines (snd p)) /\ lines = [])%nat ->
    filled_in lines hs out -> filled_in (skipped ++ lines) (p :: hs) (p :: out)
| fi_add p lines hs out :
    original p = false -> common p ->
    filled_in lines hs out -> filled_in (old_lines (snd p) ++ lines) hs (p :: out).
