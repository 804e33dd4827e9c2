(** C77 for edited models: the line numbers of differences that describe a text lie within the two texts. *)
From Coq Require Import String.
From Verif Require Import Base QtStr Lev Diff Save LinesChanged SpecEdit SpecInline SpecHistory SpecPatch SpecInts PLev PropsLev PHistory PropsHistory PMarkLoop PPatch PEditLines PropsEdit SpecEdited PropsEdited.
Local Open Scope Z_scope.

Lemma both_inside s t S D T ds : both s t S D T ds -> forall d, In d ds ->
  s <= d_src d /\ source_line_end d <= s + count S /\ t <= d_track d /\ d_track d <= t + count D /\ dlc d <= count T.
Proof.
  induction 1 as [s t same|s t same S D T d ds E1 E2 H IH]; intros x I; [destruct I|].
  assert (L : count (lines_of (d_slines d)) = count (d_slines d)) by (unfold count, lines_of; now rewrite map_length).
  assert (L2 : count (lines_of (d_dlines d)) = count (d_dlines d)) by (unfold count, lines_of; now rewrite map_length).
  assert (P1 : 0 <= count (d_slines d)) by (unfold count; lia). assert (P2 : 0 <= count (shown d)) by (unfold count; lia).
  assert (P3 : 0 <= count same) by (unfold count; lia). assert (P4 : 0 <= count S) by (unfold count; lia). assert (P5 : 0 <= count D) by (unfold count; lia).
  assert (P6 : 0 <= count T) by (unfold count; lia). assert (P7 : 0 <= count (d_dlines d)) by (unfold count; lia).
  rewrite !count_app. unfold str, chr in *. destruct I as [<-|I].
  - unfold source_line_end, slc, dlc. fold (count (d_slines d)) (count (d_dlines d)). lia.
  - destruct (IH x I) as (A & B & C & E & F). lia.
Qed.
Lemma describes_inside s t S D ds : describes s t S D ds -> forall d, In d ds ->
  if d_applied d then tracking_end d <= t + count D else d_track d <= t + count D.
Proof.
  induction 1 as [s t same|s t same S D d ds E1 E2 H IH]; intros x I; [destruct I|].
  assert (L : count (lines_of (d_slines d)) = count (d_slines d)) by (unfold count, lines_of; now rewrite map_length).
  assert (L2 : count (lines_of (d_dlines d)) = count (d_dlines d)) by (unfold count, lines_of; now rewrite map_length).
  assert (P3 : 0 <= count same) by (unfold count; lia). assert (P5 : 0 <= count D) by (unfold count; lia). assert (P2 : 0 <= count (shown d)) by (unfold count; lia).
  rewrite !count_app. unfold str, chr in *. destruct I as [<-|I].
  - unfold tracking_end, dlc in *. fold (count (d_dlines d)) in *. unfold shown in P2 |- *. destruct (d_applied d); unfold str, chr in *; lia.
  - specialize (IH x I). destruct (d_applied x); lia.
Qed.
Lemma work_inside qhash S : forall ws m T b, at_work m S T b -> Forall short S -> Forall short T -> work_fits S T b ws ->
  exists m', run_work qhash m T ws = Ok (m', fst (work_ends T b ws)) /\ at_work m' S (fst (work_ends T b ws)) (snd (work_ends T b ws)).
Proof.
  induction ws as [|w ws IH]; intros m T b HW HS HT HF; [exists m; split; [reflexivity|exact HW]|].
  destruct w as [e|c]; cbn [run_work work_fits work_ends] in *.
  - destruct HF as (-> & F1 & F2). destruct (edit_work qhash m S T e HS HT HW F1) as (m' & ins & rem & -> & HW' & HT'). cbn [bind fst].
    apply (IH _ _ true); assumption.
  - destruct (apply_all_work m S T b c HW) as (m' & -> & HW'). cbn [bind]. apply (IH _ _ c); assumption.
Qed.
(** Edits and applying or unapplying everything, in any order (C67), at any moment: if the lines of the source and of the edited text are
    together fewer than the greatest int, every line number of every difference is an int: where it starts and ends in the source, and
    its tracking number and end. *)
Theorem C77_edited_numbers_in_range qhash m ds S T ws :
  listed m = Ok ds -> NoDup (dm_diffs m) -> describes 1 1 S T ds -> Forall (fun d => d_applied d = true) ds ->
  Forall short S -> Forall short T -> work_fits S T true ws ->
  count S + count (fst (work_ends T true ws)) < greatest ->
  exists m' ds', run_work qhash m T ws = Ok (m', fst (work_ends T true ws)) /\ listed m' = Ok ds' /\
    forall d, In d ds' -> 1 <= d_src d /\ source_line_end d <= greatest /\ 1 <= d_track d /\ tracking_end d <= greatest.
Proof.
  intros HL HN HD HA HS HT HF HG.
  destruct (work_inside qhash S ws m T true) as (m' & R & (ds' & L & _ & B & A)); try assumption.
  { exists ds. auto using describes_both. }
  exists m', ds'. split; [exact R|]. split; [exact L|]. intros d I.
  destruct (both_inside _ _ _ _ _ _ B d I) as (B1 & B2 & B3 & B4 & B5).
  assert (K : d_applied d = snd (work_ends T true ws)) by (rewrite Forall_forall in A; exact (A d I)).
  pose proof (describes_inside _ _ _ _ _ (both_describes _ _ _ _ _ _ B) d I) as N. rewrite K in N.
  set (E := fst (work_ends T true ws)) in *. assert (P : 0 <= count E) by (unfold count; lia). assert (P' : 0 <= count S) by (unfold count; lia).
  destruct (snd (work_ends T true ws)); unfold tracking_end in *; lia.
Qed.
Print Assumptions C77_edited_numbers_in_range.
(** The work of C67_example. *)
Example C77_edited_example : work_fits ex_S ex_S true C67_work /\ count ex_S + count (fst (work_ends ex_S true C67_work)) < greatest.
Proof. split; [exact (proj1 C67_example)|vm_compute; reflexivity]. Qed.
