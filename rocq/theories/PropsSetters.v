(** C98: what the getters of a model, a hunk and a difference give after any calls of setters. *)
From Coq Require Import String.
From Verif Require Import Base QtStr Diff Parser SpecPatch Setters SpecSetters.
Local Open Scope Z_scope.

(** A Difference: each value is what was set last, and nothing else changes it; lines are added at the end; counts and ends follow. *)
Theorem C98_difference_after_any_setters :
  forall d cs, let d' := fold_left do_dset cs d in
  d_src d' = d_src d /\ d_dst d' = d_dst d /\
  d_type d' = last_of (fun c => match c with DsType t => Some t | _ => None end) (d_type d) cs /\
  d_track d' = last_of (fun c => match c with DsTracking z => Some z | _ => None end) (d_track d) cs /\
  d_conflicts d' = last_of (fun c => match c with DsConflict b => Some b | _ => None end) (d_conflicts d) cs /\
  d_applied d' = last_of (fun c => match c with DsApply b => Some b | _ => None end) (d_applied d) cs /\
  map ds_string (d_slines d') = map ds_string (d_slines d) ++ all_of (fun c => match c with DsSource l => Some l | _ => None end) cs /\
  map ds_string (d_dlines d') = map ds_string (d_dlines d) ++ all_of (fun c => match c with DsDestination l => Some l | _ => None end) cs /\
  slc d' = Z.of_nat (length (d_slines d')) /\ dlc d' = Z.of_nat (length (d_dlines d')) /\
  source_line_end d' = d_src d + slc d' /\ destination_line_end d' = d_dst d + dlc d' /\ tracking_end d' = d_track d' + dlc d'.
Proof.
  intros d cs. cbv zeta.
  assert (K : let d' := fold_left do_dset cs d in
    d_src d' = d_src d /\ d_dst d' = d_dst d /\
    d_type d' = last_of (fun c => match c with DsType t => Some t | _ => None end) (d_type d) cs /\
    d_track d' = last_of (fun c => match c with DsTracking z => Some z | _ => None end) (d_track d) cs /\
    d_conflicts d' = last_of (fun c => match c with DsConflict b => Some b | _ => None end) (d_conflicts d) cs /\
    d_applied d' = last_of (fun c => match c with DsApply b => Some b | _ => None end) (d_applied d) cs /\
    map ds_string (d_slines d') = map ds_string (d_slines d) ++ all_of (fun c => match c with DsSource l => Some l | _ => None end) cs /\
    map ds_string (d_dlines d') = map ds_string (d_dlines d) ++ all_of (fun c => match c with DsDestination l => Some l | _ => None end) cs).
  { cbv zeta. unfold last_of, all_of. revert d. induction cs as [|c cs IH]; intros d; cbn [fold_left map concat].
    - rewrite !app_nil_r. repeat split.
    - destruct (IH (do_dset d c)) as (A & B & C & D & E & F & G & H). rewrite A, B, C, D, E, F, G, H. clear.
      destruct c; cbn [do_dset]; unfold apply_quietly; try (cbn; rewrite ?map_app, <- ?app_assoc; repeat split; fail).
      destruct (Bool.eqb (d_applied d) b) eqn:Q; cbn; rewrite ?app_nil_r; repeat split. apply Bool.eqb_prop in Q. now rewrite Q. }
  destruct K as (A & B & C & D & E & F & G & H). unfold source_line_end, destination_line_end, tracking_end. rewrite A, B. repeat (split; [first [assumption|reflexivity]|]). reflexivity.
Qed.
Print Assumptions C98_difference_after_any_setters.
(** The unsaved mark: since it was set last, it has changed as often as the difference was really applied or unapplied. *)
Theorem C98_unsaved_after_any_setters :
  forall d before u after, Forall (fun c => forall b, c <> DsUnsaved b) after ->
  let d1 := fold_left do_dset before d in let d2 := fold_left do_dset (before ++ DsUnsaved u :: after) d in
  d_unsaved d2 = xorb u (xorb (d_applied d1) (d_applied d2)).
Proof.
  intros d before u after F. cbv zeta. rewrite fold_left_app. cbn [fold_left do_dset].
  set (d1 := fold_left do_dset before d). assert (K : forall d, xorb (d_unsaved (fold_left do_dset after d)) (d_applied (fold_left do_dset after d)) = xorb (d_unsaved d) (d_applied d)).
  { induction after as [|c after IH]; intros x; [reflexivity|]. inversion_clear F as [|? ? F1 F2]. cbn [fold_left]. rewrite (IH F2).
    destruct c; cbn; auto; [exfalso; exact (F1 b eq_refl)|]. unfold apply_quietly. destruct (Bool.eqb (d_applied x) b) eqn:Q; [reflexivity|]. cbn.
    apply Bool.eqb_false_iff in Q. now destruct (d_unsaved x), (d_applied x), b. }
  specialize (K (set_unsaved u d1)). cbn in K. change (d_applied (set_unsaved u d1)) with (d_applied d1) in K.
  destruct (d_unsaved (fold_left do_dset after (set_unsaved u d1))), (d_applied (fold_left do_dset after (set_unsaved u d1))), u, (d_applied d1); cbn in *; congruence.
Qed.
Print Assumptions C98_unsaved_after_any_setters.
(** A DiffHunk. *)
Theorem C98_hunk_after_any_setters :
  forall h cs, let h' := fold_left do_hset cs h in
  h_src h' = h_src h /\ h_dst h' = h_dst h /\ h_function h' = h_function h /\
  h_type h' = last_of (fun c => match c with HsType t => Some t | _ => None end) (h_type h) cs /\
  h_diffs h' = h_diffs h ++ all_of (fun c => match c with HsAdd i => Some i | _ => None end) cs.
Proof.
  intros h cs. cbv zeta. unfold last_of, all_of. revert h. induction cs as [|c cs IH]; intros h; cbn [fold_left map concat].
  - rewrite app_nil_r. repeat split.
  - destruct (IH (do_hset h c)) as (A & B & C & D & E). rewrite A, B, C, D, E. destruct c; cbn; rewrite <- ?app_assoc; repeat split.
Qed.
Print Assumptions C98_hunk_after_any_setters.
(** A DiffModel: calls are undefined only for a Difference that is not there; each value is what was set last; hunks and differences are added at the
    end; a Difference that was added tells the model when it is applied; the others, and all else in them, are as before. The headings of the recreated diff
    show the values that were set last. *)
Theorem C98_model_after_any_setters :
  forall m cs,
  ((exists m', do_msets m cs = Ok m') <-> Forall (fun i => (i < length (dm_store m))%nat) (all_of (fun c => match c with MsDiff i => Some i | _ => None end) cs)) /\
  forall m', do_msets m cs = Ok m' ->
  dm_source m' = last_of (fun c => match c with MsSource p => Some p | _ => None end) (dm_source m) cs /\
  dm_destination m' = last_of (fun c => match c with MsDestination p => Some p | _ => None end) (dm_destination m) cs /\
  dm_sts m' = last_of (fun c => match c with MsSourceStamp s => Some s | _ => None end) (dm_sts m) cs /\
  dm_dts m' = last_of (fun c => match c with MsDestinationStamp s => Some s | _ => None end) (dm_dts m) cs /\
  dm_srev m' = last_of (fun c => match c with MsSourceRevision s => Some s | _ => None end) (dm_srev m) cs /\
  dm_drev m' = last_of (fun c => match c with MsDestinationRevision s => Some s | _ => None end) (dm_drev m) cs /\
  dm_index m' = last_of (fun c => match c with MsIndex i => Some i | _ => None end) (dm_index m) cs /\
  dm_blended m' = last_of (fun c => match c with MsBlended b => Some b | _ => None end) (dm_blended m) cs /\
  dm_hunks m' = dm_hunks m ++ all_of (fun c => match c with MsHunk h => Some h | _ => None end) cs /\
  dm_diffs m' = dm_diffs m ++ all_of (fun c => match c with MsDiff i => Some i | _ => None end) cs /\
  dm_sel m' = dm_sel m /\ dm_applied m' = dm_applied m /\
  (forall i, nth_error (dm_store m') i = option_map (fun d => if existsb (Nat.eqb i) (all_of (fun c => match c with MsDiff i => Some i | _ => None end) cs)
                                                              then set_connected true d else d) (nth_error (dm_store m) i)) /\
  recreate_header m' =
    lit "--- " ++ escape_path (last_of (fun c => match c with MsSource p => Some p | _ => None end) (dm_source m) cs) ++ [TAB] ++
    last_of (fun c => match c with MsSourceStamp s => Some s | _ => None end) (dm_sts m) cs ++
    (match last_of (fun c => match c with MsSourceRevision s => Some s | _ => None end) (dm_srev m) cs with [] => [] | r => TAB :: r end) ++ [NL] ++
    lit "+++ " ++ escape_path (last_of (fun c => match c with MsDestination p => Some p | _ => None end) (dm_destination m) cs) ++ [TAB] ++
    last_of (fun c => match c with MsDestinationStamp s => Some s | _ => None end) (dm_dts m) cs ++
    (match last_of (fun c => match c with MsDestinationRevision s => Some s | _ => None end) (dm_drev m) cs with [] => [] | r => TAB :: r end) ++ [NL].
Proof.
  assert (LU : forall {A} (l : list A) i v j, nth_error (update l i v) j = if Nat.eqb j i then (match nth_error l i with Some _ => Some v | None => None end) else nth_error l j).
  { intros A. induction l as [|x l IH]; intros [|i] v [|j]; cbn [update nth_error Nat.eqb]; auto. now destruct (Nat.eqb j i). }
  assert (UL : forall {A} (l : list A) i v, length (update l i v) = length l) by (intros A; induction l as [|x l IH]; intros [|i] v; cbn; auto).
  assert (SF : forall p m, dm_source (set_source_file p m) = p /\ dm_destination (set_source_file p m) = dm_destination m /\ dm_sts (set_source_file p m) = dm_sts m /\
     dm_dts (set_source_file p m) = dm_dts m /\ dm_srev (set_source_file p m) = dm_srev m /\ dm_drev (set_source_file p m) = dm_drev m /\
     dm_index (set_source_file p m) = dm_index m /\ dm_blended (set_source_file p m) = dm_blended m /\ dm_hunks (set_source_file p m) = dm_hunks m /\
     dm_diffs (set_source_file p m) = dm_diffs m /\ dm_sel (set_source_file p m) = dm_sel m /\ dm_applied (set_source_file p m) = dm_applied m /\ dm_store (set_source_file p m) = dm_store m).
  { intros p m. unfold set_source_file, split_source. cbn. destruct (last_index_of SLASH p); repeat split. }
  assert (DF : forall p m, dm_source (set_destination_file p m) = dm_source m /\ dm_destination (set_destination_file p m) = p /\ dm_sts (set_destination_file p m) = dm_sts m /\
     dm_dts (set_destination_file p m) = dm_dts m /\ dm_srev (set_destination_file p m) = dm_srev m /\ dm_drev (set_destination_file p m) = dm_drev m /\
     dm_index (set_destination_file p m) = dm_index m /\ dm_blended (set_destination_file p m) = dm_blended m /\ dm_hunks (set_destination_file p m) = dm_hunks m /\
     dm_diffs (set_destination_file p m) = dm_diffs m /\ dm_sel (set_destination_file p m) = dm_sel m /\ dm_applied (set_destination_file p m) = dm_applied m /\ dm_store (set_destination_file p m) = dm_store m).
  { intros p m. unfold set_destination_file, split_destination. cbn. destruct (last_index_of SLASH p); repeat split. }
  intros m cs. split.
  - revert m. induction cs as [|c cs IH]; intros m; cbn [do_msets]. { split; [intros _; constructor|eauto]. }
    unfold all_of in *. cbn [map concat].
    assert (SO : forall m1, dm_store m1 = dm_store m \/ length (dm_store m1) = length (dm_store m) -> (exists m', do_msets m1 cs = Ok m') <->
       Forall (fun i => (i < length (dm_store m))%nat) (concat (map (fun a => match (match a with MsDiff i => Some i | _ => None end) with Some b => [b] | None => [] end) cs))).
    { intros m1 [E|E]; rewrite (IH m1), E; reflexivity. }
    destruct c; cbn [do_mset bind app]; try (apply SO; left; first [apply SF|apply DF|reflexivity]).
    unfold add_diff, deref. destruct (nth_error (dm_store m) i) as [d|] eqn:Q; cbn [bind].
    + rewrite (SO (with_contents m (dm_hunks m) (dm_diffs m ++ [i]) (update (dm_store m) i (set_connected true d)))); [|right; cbn; apply UL].
      assert (i < length (dm_store m))%nat by (apply nth_error_Some; congruence). split; [intros F; constructor; auto|intros F; now inversion F].
    + split; [intros [m' X]; discriminate|]. intros F. inversion_clear F as [|? ? F1 F2]. apply nth_error_Some in F1. congruence.
  - intros m' R. unfold recreate_header.
    match goal with |- ?a /\ ?b /\ ?c /\ ?d /\ ?e /\ ?f /\ ?g /\ ?h /\ ?i /\ ?j /\ ?k /\ ?l /\ ?n /\ _ => assert (K : a /\ b /\ c /\ d /\ e /\ f /\ g /\ h /\ i /\ j /\ k /\ l /\ n) end.
    { unfold last_of, all_of. revert m R. induction cs as [|c cs IH]; intros m R; cbn [do_msets] in R.
      - injection R as <-. cbn. rewrite !app_nil_r. repeat (split; [reflexivity|]). intros i. destruct (nth_error (dm_store m) i); reflexivity.
      - destruct (do_mset m c) as [m1| |] eqn:Q; try discriminate. cbn [bind] in R. destruct (IH m1 R) as (A1 & A2 & A3 & A4 & A5 & A6 & A7 & A8 & A9 & A10 & A11 & A12 & A13).
        clear IH R. cbn [fold_left map concat].
        destruct c; cbn [do_mset] in Q; [| | | | | | | |unfold set_diff_index in Q|unfold set_blended in Q].
        8: { unfold add_diff, deref in Q. destruct (nth_error (dm_store m) i) as [d|] eqn:ND; [|discriminate]. cbn [bind] in Q. injection Q as <-. cbn in *.
             rewrite <- app_assoc in A10. repeat (split; [assumption|]). intros j. rewrite A13, LU. destruct (Nat.eqb_spec j i) as [->|NE]; cbn [orb].
             - rewrite ND. cbn. now destruct (existsb _ _).
             - reflexivity. }
        all: injection Q as Q; subst m1.
        1: destruct (SF p m) as (B1 & B2 & B3 & B4 & B5 & B6 & B7 & B8 & B9 & B10 & B11 & B12 & B13);
               rewrite ?B1, ?B2, ?B3, ?B4, ?B5, ?B6, ?B7, ?B8, ?B9, ?B10, ?B11, ?B12, ?B13 in *.
        2: destruct (DF p m) as (B1 & B2 & B3 & B4 & B5 & B6 & B7 & B8 & B9 & B10 & B11 & B12 & B13);
               rewrite ?B1, ?B2, ?B3, ?B4, ?B5, ?B6, ?B7, ?B8, ?B9, ?B10, ?B11, ?B12, ?B13 in *.
        all: cbn in *; rewrite <- ?app_assoc in A9; repeat (split; [assumption|]); assumption. }
    destruct K as (A1 & A2 & A3 & A4 & A5 & A6 & A7 & A8 & A9 & A10 & A11 & A12 & A13).
    repeat (split; [assumption|]). now rewrite A1, A2, A3, A4, A5, A6.
Qed.
Print Assumptions C98_model_after_any_setters.
(** Calls that are defined, with a Difference that is there. *)
Example C98_example :
  let m := with_store (new_model (lit "a") (lit "b")) [new_diff 1 1 Change] in
  let cs := [MsSourceStamp (lit "1"); MsDiff 0; MsDestinationRevision (lit "r"); MsSource (lit "x/y"); MsSourceStamp (lit "2"); MsBlended true] in
  exists m', do_msets m cs = Ok m' /\ dm_sts m' = lit "2" /\ dm_drev m' = lit "r" /\ dm_srev m' = [] /\ dm_spath m' = lit "x/" /\ dm_diffs m' = [0%nat] /\
  recreate_header m' = lit "--- x/y" ++ [TAB] ++ lit "2" ++ [NL] ++ lit "+++ b" ++ [TAB] ++ [TAB] ++ lit "r" ++ [NL].
Proof. vm_compute. eexists. repeat split. Qed.
