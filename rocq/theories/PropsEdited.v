(** C66 to C69: edits together with the rest of a model. *)
From Coq Require Import ZifyBool ZifyNat ZifyN String.
From Verif Require Import Base QtStr Lev Diff Save LinesChanged SpecEdit SpecInline SpecHistory SpecPatch PLev PropsLev PHistory PropsHistory PMarkLoop PPatch PEditLines PropsEdit SpecEdited.
Local Open Scope Z_scope.

(** * Applying everything *)
Lemma view_applied b : forall ds total, Forall (fun d => d_applied d = b) (apply_all_view b total ds).
Proof.
  induction ds as [|d ds IH]; intros total; cbn [apply_all_view]; [constructor|].
  destruct (Bool.eqb_spec (d_applied (set_track (d_track d + total) d)) b) as [E|E]; constructor; auto.
  unfold apply_quietly. destruct (Bool.eqb_spec (d_applied (set_track (d_track d + total) d)) b); [contradiction|reflexivity].
Qed.
(** [both s t S D T ds]: the differences describe D as a patch of S, and T is what they describe when all are applied. *)
Inductive both : Z -> Z -> list str -> list str -> list str -> list difference -> Prop :=
| both_end s t same : both s t same same same []
| both_diff s t same S D T d ds :
    d_src d = s + count same -> d_track d = t + count same ->
    both (s + count same + count (d_slines d)) (t + count same + count (shown d)) S D T ds ->
    both s t (same ++ lines_of (d_slines d) ++ S) (same ++ shown d ++ D) (same ++ lines_of (d_dlines d) ++ T) (d :: ds).
Lemma both_cast s t S D T ds s' t' : both s t S D T ds -> s = s' -> t = t' -> both s' t' S D T ds.
Proof. intros H -> ->. exact H. Qed.
Lemma both_describes s t S D T ds : both s t S D T ds -> describes s t S D ds.
Proof. induction 1; constructor; assumption. Qed.
Lemma describes_both s t S D ds : describes s t S D ds -> Forall (fun d => d_applied d = true) ds -> both s t S D D ds.
Proof.
  induction 1 as [s t same | s t same S D d ds E1 E2 H IH]; intros Ha; [constructor|]. inversion Ha as [|? ? A1 A2]; subst.
  assert (shown d = lines_of (d_dlines d)) as Es by (unfold shown; rewrite A1; reflexivity).
  rewrite Es at 2. constructor; auto.
Qed.
Lemma both_view (b : bool) s t S D T ds : both s t S D T ds -> forall k,
  both s (t + k) S (if b : bool then T else S) T (apply_all_view b k ds).
Proof.
  induction 1 as [s t same | s t same S D T d ds E1 E2 H IH]; intros k; cbn [apply_all_view].
  - destruct b; constructor.
  - set (d1 := set_track (d_track d + k) d).
    assert (forall d' j, d_src d' = d_src d -> d_slines d' = d_slines d -> d_dlines d' = d_dlines d -> d_track d' = d_track d + k -> d_applied d' = b ->
      j = k + count (shown d') - count (shown d) ->
      both s (t + k) (same ++ lines_of (d_slines d) ++ S) (if b then same ++ lines_of (d_dlines d) ++ T else same ++ lines_of (d_slines d) ++ S)
        (same ++ lines_of (d_dlines d) ++ T) (d' :: apply_all_view b j ds)) as G.
    { intros d' j Q1 Q2 Q3 Q4 Q5 Q6. rewrite <- Q2, <- Q3.
      replace (if b then same ++ lines_of (d_dlines d') ++ T else same ++ lines_of (d_slines d') ++ S)
        with (same ++ shown d' ++ (if b then T else S)) by (unfold shown; rewrite Q5; destruct b; reflexivity).
      constructor; [lia|lia|]. rewrite Q2. eapply both_cast; [apply (IH j)|reflexivity|lia]. }
    assert (d_applied d1 = d_applied d) as Ea by reflexivity.
    destruct (Bool.eqb_spec (d_applied d1) b) as [E|E].
    + apply G; try reflexivity; [congruence|]. change (shown d1) with (shown d). lia.
    + set (d2 := apply_quietly b d1).
      assert (d2 = restate d (d_track d + k) b (negb (d_unsaved d))) as Ed.
      { unfold d2, apply_quietly. destruct (Bool.eqb_spec (d_applied d1) b); [contradiction|]. reflexivity. }
      rewrite Ed. apply G; try reflexivity. unfold difference_delta, shown, dlc, slc. cbn [restate d_applied d_dlines d_slines].
      fold (count (d_dlines d)) (count (d_slines d)). rewrite Ea in E. destruct b, (d_applied d); try congruence; rewrite !count_lines; lia.
Qed.

(** ** C67 *)
Definition at_work (m : dmodel) (S T : list str) (b : bool) : Prop :=
  exists ds, listed m = Ok ds /\ NoDup (dm_diffs m) /\ both 1 1 S (if b then T else S) T ds /\ Forall (fun d => d_applied d = b) ds.
Lemma apply_all_work m S T b c : at_work m S T b -> exists m', apply_all m c = Ok m' /\ at_work m' S T c.
Proof.
  intros (ds & HL & HN & HB & HA). unfold apply_all. cbn [with_applied dm_diffs dm_store].
  unfold listed in HL. destruct (apply_all_ok c (dm_diffs m) (dm_store m) ds 0 HL HN) as (st & -> & _ & D). cbn [bind].
  eexists. split; [reflexivity|]. exists (apply_all_view c 0 ds). split; [exact D|]. split; [exact HN|]. split; [|apply view_applied].
  eapply both_cast; [eapply (both_view c); exact HB|reflexivity|lia].
Qed.
Lemma edit_work qhash m S T e : Forall short S -> Forall short T -> at_work m S T true -> edits_fit S T [e] ->
  exists m' ins rem, lines_changed qhash m (e_old T e) (e_new e) (1 + Z.of_nat (e_pos e)) = Ok (m', ins, rem) /\ at_work m' S (edited T e) true /\
    Forall short (edited T e).
Proof.
  intros HS HT (ds & HL & HN & HB & HA) HF.
  destruct (C32_any_sequence_of_edits qhash S HS [e] m T) as (m' & doc' & E & (ds' & L' & N' & D' & A') & ->); [|exact HT|exact HF|].
  { exists ds. split; [exact HL|]. split; [exact HN|]. split; [eapply both_describes; exact HB|exact HA]. }
  cbn [run_edits] in E. destruct (lines_changed qhash m (e_old T e) (e_new e) (1 + Z.of_nat (e_pos e))) as [[[m1 ins] rem]| |]; try discriminate.
  cbn [bind] in E. injection E as ->. exists m', ins, rem. split; [reflexivity|]. split.
  - exists ds'. split; [exact L'|]. split; [exact N'|]. split; [|exact A']. apply describes_both; assumption.
  - cbn in HF. destruct HF as (F1 & _ & F3 & _). unfold edited. rewrite !Forall_app. split; [|split; [exact F3|]].
    + rewrite <- (firstn_skipn (e_pos e) T), Forall_app in HT. apply HT.
    + rewrite <- (firstn_skipn (e_pos e + e_len e) T), Forall_app in HT. apply HT.
Qed.

(** Edits and applying or unapplying everything, in any order, the edits being made while everything is applied: no call has
    undefined behaviour; at the end the differences describe the text with all of them worked in, or the source itself. *)
Theorem C67_edits_and_apply_all qhash m ds S T ws :
  listed m = Ok ds -> NoDup (dm_diffs m) -> describes 1 1 S T ds -> Forall (fun d => d_applied d = true) ds ->
  Forall short S -> Forall short T -> work_fits S T true ws ->
  exists m' ds', run_work qhash m T ws = Ok (m', fst (work_ends T true ws)) /\ listed m' = Ok ds' /\ NoDup (dm_diffs m') /\
    Forall (fun d => d_applied d = snd (work_ends T true ws)) ds' /\
    describes 1 1 S (if snd (work_ends T true ws) then fst (work_ends T true ws) else S) ds'.
Proof.
  intros HL HN HD HA HS HT.
  assert (at_work m S T true) as HW by (exists ds; auto using describes_both).
  clear HL HN HD HA. revert m T HW HT. generalize true. clear ds.
  induction ws as [|w ws IH]; intros b m T HW HT HF.
  - destruct HW as (ds & HL & HN & HB & HA). exists m, ds. cbn. repeat split; try assumption. eapply both_describes; exact HB.
  - destruct w as [e|c]; cbn [run_work work_fits work_ends] in *.
    + destruct HF as (-> & F1 & F2). destruct (edit_work qhash m S T e HS HT HW F1) as (m' & ins & rem & -> & HW' & HT'). cbn [bind fst].
      apply (IH true); assumption.
    + destruct (apply_all_work m S T b c HW) as (m' & -> & HW'). cbn [bind]. apply (IH c); assumption.
Qed.
Print Assumptions C67_edits_and_apply_all.
Definition C67_work : list work :=
  [ EditText (mk_edit 1 1 [lit "TWO"; lit "2"]); ApplyEverything false; ApplyEverything true; EditText (mk_edit 4 1 []); ApplyEverything false ].
Example C67_example : work_fits ex_S ex_S true C67_work /\ snd (work_ends ex_S true C67_work) = false /\
  fst (work_ends ex_S true C67_work) = [lit "one"; lit "TWO"; lit "2"; lit "three"; lit "five"] /\
  match run_work ex_hash (new_model (lit "a") (lit "b")) ex_S C67_work with
  | Ok (m', _) => match listed m' with Ok ds => map d_track ds = [2; 4] /\ map d_dst ds = [2; 5] | _ => False end
  | _ => False end.
Proof.
  split; [|vm_compute; auto]. cbn. unfold count, short, count. cbn.
  repeat (split; [lia || reflexivity|]); repeat (split; [lia || reflexivity || (repeat constructor; cbn; lia)|]); auto.
Qed.

(** * C66: what an edit does not reach *)
Lemma shift_after_tracks delta : forall l st st', shift_after l delta st = Ok st' ->
  forall i d, nth_error st i = Some d -> exists t, nth_error st' i = Some (set_track t d).
Proof.
  induction l as [|j l IH]; intros st st' H i d Hd; cbn [shift_after] in H.
  - injection H as <-. exists (d_track d). rewrite Hd. now destruct d.
  - unfold deref in H. destruct (nth_error st j) as [dj|] eqn:Ej; [|discriminate]. cbn [bind] in H.
    destruct (Nat.eq_dec j i) as [->|Hne].
    + rewrite Hd in Ej. injection Ej as <-.
      destruct (IH _ _ H i (set_track (d_track d + delta) d)) as (t & E); [apply nth_update_same; eapply nth_some_lt; exact Hd|].
      exists t. exact E.
    + eapply IH; [exact H|]. rewrite nth_update_other by congruence. exact Hd.
Qed.
Lemma edit_store qhash m old new edit m' ins rem : lines_changed qhash m old new edit = Ok (m', ins, rem) ->
  (exists ids st, m' = with_contents m (dm_hunks m) ids st) /\
  forall i d, nth_error (dm_store m) i = Some d -> exists t, nth_error (dm_store m') i = Some (set_track t d).
Proof.
  intros H. unfold lines_changed in H.
  assert (old = [] /\ new = [] \/ ~ (old = [] /\ new = [])) as [[-> ->]|Hne].
  { destruct old, new; auto; right; intros [? ?]; congruence. }
  - injection H as <- _ _. split; [exists (dm_diffs m), (dm_store m); symmetry; apply with_contents_id|].
    intros i d Hd. exists (d_track d). rewrite Hd. now destruct d.
  - set (body := bind (deref_all (dm_store m) (dm_diffs m)) _) in H.
    assert (match old with [] => match new with [] => Ok (m, [], []) | _ :: _ => body end | _ :: _ => body end = body) as E.
    { destruct old, new; try reflexivity. exfalso; auto. }
    rewrite E in H. clear E. unfold body in H. clear body. destruct (deref_all (dm_store m) (dm_diffs m)) as [ds| |]; try discriminate. cbn [bind] in H.
    destruct (until (starts_range edit) ds) as [pre rest]. destruct (until (stops_range (edit + Z.of_nat (length old))) rest) as [mid post].
    destruct (region_numbers edit ds rest) as [sl dl].
    destruct (region_lines _ _ _ _ _) as [[src dst]| |]; cbn [bind] in H; try discriminate.
    destruct (create_table _ _) as [r| |]; cbn [bind] in H; try discriminate.
    destruct (create_markers _ _ _ _) as [[m1 m2]| |]; cbn [bind] in H; try discriminate.
    destruct (marker_loop _ _ _ _ _ _ _ _ _ _) as [news| |]; cbn [bind] in H; try discriminate.
    destruct (shift_after _ _ _) as [st| |] eqn:Es; cbn [bind] in H; try discriminate. injection H as <- _ _.
    split; [eexists _, _; reflexivity|]. cbn [with_contents dm_store]. intros i d Hd.
    eapply shift_after_tracks; [exact Es|]. rewrite nth_error_app1; [exact Hd|eapply nth_some_lt; exact Hd].
Qed.
Lemma deref_all_tracks st st' : (forall i d, nth_error st i = Some d -> exists t, nth_error st' i = Some (set_track t d)) ->
  forall l ds, deref_all st l = Ok ds -> exists ds', deref_all st' l = Ok ds' /\ Forall2 (fun d d' => exists t, d' = set_track t d) ds ds'.
Proof.
  intros H. induction l as [|i l IH]; intros ds E.
  - cbn in E. injection E as <-. exists []. split; [reflexivity|constructor].
  - destruct (deref_all_cons _ _ _ _ E) as (d & ds0 & -> & Hd & E0). destruct (IH _ E0) as (ds1 & E1 & F).
    destruct (H i d Hd) as (t & Ht). exists (set_track t d :: ds1). cbn [deref_all]. unfold deref. rewrite Ht. cbn [bind]. rewrite E1.
    split; [reflexivity|]. constructor; [eauto|exact F].
Qed.
Lemma recreate_hunk_tracks h ds ds' : Forall2 (fun d d' => exists t, d' = set_track t d) ds ds' ->
  recreate_hunk_of h ds' = recreate_hunk_of h ds.
Proof.
  intros F. unfold recreate_hunk_of.
  assert (forall n, fold_left (fun n d => match d_type d with Unchanged | Change | Delete => n + slc d | Insert => n end) ds' n =
                    fold_left (fun n d => match d_type d with Unchanged | Change | Delete => n + slc d | Insert => n end) ds n) as E1.
  { induction F as [|d d' l l' (t & ->) _ IH]; intros n; [reflexivity|]. cbn [fold_left]. rewrite IH. reflexivity. }
  assert (forall n, fold_left (fun n d => match d_type d with Unchanged | Change | Insert => n + dlc d | Delete => n end) ds' n =
                    fold_left (fun n d => match d_type d with Unchanged | Change | Insert => n + dlc d | Delete => n end) ds n) as E2.
  { clear E1. induction F as [|d d' l l' (t & ->) _ IH]; intros n; [reflexivity|]. cbn [fold_left]. rewrite IH. reflexivity. }
  assert (map recreate_difference ds' = map recreate_difference ds) as E3.
  { clear E1 E2. induction F as [|d d' l l' (t & ->) _ IH]; [reflexivity|]. cbn [map]. rewrite IH. reflexivity. }
  rewrite E1, E2, E3. reflexivity.
Qed.
Lemma recreate_tracks st st' : (forall i d, nth_error st i = Some d -> exists t, nth_error st' i = Some (set_track t d)) ->
  forall hs s, recreate_hunks st hs = Ok s -> recreate_hunks st' hs = Ok s.
Proof.
  intros H. induction hs as [|h hs IH]; intros s E; cbn [recreate_hunks] in *; [exact E|].
  destruct (h_type h).
  - unfold recreate_hunk in *. destruct (deref_all st (h_diffs h)) as [ds| |] eqn:Ed; try discriminate. cbn [bind] in E.
    destruct (deref_all_tracks st st' H _ _ Ed) as (ds' & -> & F). cbn [bind]. rewrite (recreate_hunk_tracks h _ _ F).
    destruct (recreate_hunks st hs) as [s2| |]; try discriminate. rewrite (IH s2 eq_refl). exact E.
  - cbn [bind] in *. destruct (recreate_hunks st hs) as [s2| |]; try discriminate. rewrite (IH s2 eq_refl). exact E.
Qed.
Lemma saved_tracks st st' : (forall i d, nth_error st i = Some d -> exists t, nth_error st' i = Some (set_track t d)) ->
  forall hs s, saved_lines st hs = Ok s -> saved_lines st' hs = Ok s.
Proof.
  intros H. induction hs as [|h hs IH]; intros s E; cbn [saved_lines] in *; [exact E|].
  destruct (deref_all st (h_diffs h)) as [ds| |] eqn:Ed; try discriminate. cbn [bind] in E.
  destruct (deref_all_tracks st st' H _ _ Ed) as (ds' & -> & F). cbn [bind].
  assert (map saved_lines_of ds' = map saved_lines_of ds) as ->.
  { clear - F. induction F as [|d d' l l' (t & ->) _ IH]; [reflexivity|]. cbn [map]. rewrite IH. reflexivity. }
  destruct (saved_lines st hs) as [s2| |]; try discriminate. rewrite (IH s2 eq_refl). exact E.
Qed.

(** Whatever is edited, and whatever may have been saved or recreated before: the recreated diff is the same, a save that
    succeeds writes the same text, the number of applied differences and the selected difference are the same. *)
Theorem C66_edit_leaves_output_alone qhash m old new edit m' ins rem :
  lines_changed qhash m old new edit = Ok (m', ins, rem) ->
  (forall text, recreate_diff m = Ok text -> recreate_diff m' = Ok text) /\
  (forall ls e o, saved_lines (dm_store m) (dm_hunks m) = Ok ls -> save_destination e m' = Ok o ->
     so_written o = None \/ so_written o = Some (concat ls)) /\
  dm_applied m' = dm_applied m /\ dm_sel m' = dm_sel m /\ dm_index m' = dm_index m.
Proof.
  intros H. destruct (edit_store _ _ _ _ _ _ _ _ H) as [(ids & st & Em) Hs]. split; [|split].
  - intros text E. unfold recreate_diff in *. destruct (recreate_hunks (dm_store m) (dm_hunks m)) as [b| |] eqn:Eb; try discriminate. cbn [bind] in E.
    assert (dm_hunks m' = dm_hunks m) as -> by (rewrite Em; reflexivity).
    rewrite (recreate_tracks _ _ Hs _ _ Eb). cbn [bind]. rewrite <- E. f_equal. f_equal. rewrite Em. reflexivity.
  - intros ls e o El E. apply (saved_tracks _ _ Hs) in El. assert (dm_hunks m' = dm_hunks m) as Eh by (rewrite Em; reflexivity).
    unfold save_destination in E. rewrite Eh, El in E. cbn [bind] in E.
    destruct (has_unsaved m') as [u| |]; try discriminate. cbn [bind] in E.
    destruct (negb u); [injection E as <-; left; reflexivity|].
    destruct (negb (se_open e)); [injection E as <-; left; reflexivity|].
    destruct (negb (se_write e)); [injection E as <-; left; reflexivity|].
    destruct (negb (se_close e)); [injection E as <-; left; reflexivity|].
    destruct (se_dirs e && negb (se_stat e) && negb (se_mkdir e))%bool; [injection E as <-; left; reflexivity|].
    destruct (se_copy e); [|injection E as <-; left; reflexivity].
    destruct (clear_unsaved _ _); try discriminate. cbn [bind] in E. injection E as <-. right. reflexivity.
  - rewrite Em. repeat split; reflexivity.
Qed.
Print Assumptions C66_edit_leaves_output_alone.
