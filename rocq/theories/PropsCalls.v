(** C66, C68, C69: witnesses, applying one difference, and any history of calls on one model. *)
From Coq Require Import ZifyBool ZifyNat ZifyN String.
From Verif Require Import Base QtStr Lev Diff Save LinesChanged Parser Blend SpecEdit SpecInline SpecHistory SpecPatch PLev PropsLev PHistory PropsHistory PMarkLoop PPatch PEditLines PAnyInput PropsUnified PropsWorkflow PSave PKin PropsEdit SpecEdited PropsEdited SpecCalls.
Local Open Scope Z_scope.

(** * C66 *)
Definition opened (diff file : list string) : res dmodel :=
  do o <- parse (fun l => l) (map nl diff);
  match the_models (po_models o) with
  | [m] => blend_file m (concat (map nl file))
  | _ => UB "not one file"
  end.
Definition C66_opened : res dmodel :=
  opened ["--- a	1"; "+++ b	2"; "@@ -1,3 +1,3 @@"; " 1"; "-2"; "+x"; " 3"]%string ["1"; "2"; "3"]%string.
(** A diff of one file is opened and blended; its third line is replaced by NEW; the file is saved: there is no NEW in
    it, nor in the recreated diff; a difference is applied, the number of applied differences is 0. *)
Theorem C66_edit_reaches_output_refuted :
  exists m m' ins rem o text r, C66_opened = Ok m /\
    lines_changed ex_hash m [nl "3"] [nl "NEW"] 3 = Ok (m', ins, rem) /\
    (exists ds, listed m' = Ok ds /\ existsb d_applied ds = true) /\ dm_applied m' = 0 /\
    save_destination good m' = Ok o /\ so_written o = Some text /\ ~ In 78%N text /\
    recreate_diff m' = Ok r /\ ~ In 78%N r.
Proof.
  assert (match C66_opened with Ok m => match lines_changed ex_hash m [nl "3"] [nl "NEW"] 3 with
    | Ok (m', ins, rem) => match listed m' with Ok ds => existsb d_applied ds = true | _ => False end /\ dm_applied m' = 0 /\
        match save_destination good m' with Ok o => match so_written o with Some text => existsb (N.eqb 78) text = false | None => False end | _ => False end /\
        match recreate_diff m' with Ok r => existsb (N.eqb 78) r = false | _ => False end
    | _ => False end | _ => False end) as H by (vm_compute; auto).
  destruct C66_opened as [m| |]; try contradiction.
  destruct (lines_changed ex_hash m [nl "3"] [nl "NEW"] 3) as [[[m' ins] rem]| |] eqn:EL; try contradiction.
  destruct H as (H1 & H2 & H3 & H4). destruct (listed m') as [ds| |] eqn:ED; try contradiction.
  destruct (save_destination good m') as [o| |] eqn:EO; try contradiction. destruct (so_written o) as [text|] eqn:Et; try contradiction.
  destruct (recreate_diff m') as [r| |] eqn:ER; try contradiction.
  assert (forall l, existsb (N.eqb 78) l = false -> ~ In 78%N l) as N.
  { intros l E I. assert (existsb (N.eqb 78) l = true) by (apply existsb_exists; exists 78%N; split; [exact I|reflexivity]). congruence. }
  exists m, m', ins, rem, o, text, r. split; [reflexivity|]. split; [exact EL|]. split; [exists ds; auto|]. repeat split; auto.
Qed.
Print Assumptions C66_edit_reaches_output_refuted.

(** * C68 *)
(** Two edits, then the first difference is unapplied: the tracking number of the second one is not moved. *)
Definition C68_edits : list edit_op := [mk_edit 0 0 [lit "zero"]; mk_edit 5 1 [lit "FIVE"]].
Theorem C68_apply_one_after_edits_refuted : exists m doc m' ds',
  run_edits ex_hash (new_model (lit "a") (lit "b")) ex_S C68_edits = Ok (m, doc) /\
  run m [Select 0; ApplySelected false] = Ok m' /\ listed m' = Ok ds' /\ forall doc', ~ describes 1 1 ex_S doc' ds'.
Proof.
  assert (match run_edits ex_hash (new_model (lit "a") (lit "b")) ex_S C68_edits with
    | Ok (m, doc) => match run m [Select 0; ApplySelected false] with
      | Ok m' => match listed m' with Ok [d1; d2] => d_applied d1 = false /\ d_slines d1 = [] /\ d_src d1 = 1 /\ d_track d1 = 1 /\ d_src d2 = 5 /\ d_track d2 = 6
                 | _ => False end | _ => False end | _ => False end) as H by (vm_compute; auto 10).
  destruct (run_edits ex_hash (new_model (lit "a") (lit "b")) ex_S C68_edits) as [[m doc]| |]; try contradiction.
  destruct (run m [Select 0; ApplySelected false]) as [m'| |] eqn:E; try contradiction. destruct (listed m') as [ds'| |] eqn:L; try contradiction.
  exists m, doc, m', ds'. split; [reflexivity|]. split; [exact E|]. split; [exact L|].
  destruct ds' as [|d1 [|d2 [|d3 ds']]]; try contradiction. destruct H as (A & B & C & D & F & G).
  intros doc' HD. inversion HD as [|? ? same ? ? ? ? E1 E2 HD2]; subst. inversion HD2 as [|? ? same2 ? ? ? ? E3 E4 HD3]; subst.
  assert (count (shown d1) = 0) as Z1 by (unfold shown; rewrite A, B; reflexivity). assert (count (d_slines d1) = 0) as Z2 by (rewrite B; reflexivity). lia.
Qed.
Print Assumptions C68_apply_one_after_edits_refuted.

(** Inserted differences are connected to nothing. *)
Lemma inline_connected d d' : determine_inline d = Ok d' -> d_connected d' = d_connected d.
Proof.
  unfold determine_inline. destruct (negb _); [intros E; injection E as <-; reflexivity|]. destruct (negb _); [intros E; injection E as <-; reflexivity|].
  destruct (inline_lines _ _ _) as [[sl dl]| |]; try discriminate. cbn [bind]. intros E; injection E as <-. reflexivity.
Qed.
Lemma marker_loop_connected fuel : forall src dst sl dl term m1 m2 cs cd ds,
  marker_loop fuel src dst sl dl term m1 m2 cs cd = Ok ds -> Forall (fun d => d_connected d = false) ds.
Proof.
  induction fuel as [|fuel IH]; intros src dst sl dl term m1 m2 cs cd ds H.
  - destruct m1, m2; cbn in H; try discriminate. injection H as <-. constructor.
  - assert (m1 = [] /\ m2 = [] \/ ~ (m1 = [] /\ m2 = [])) as [[-> ->]|Hne].
    { destruct m1, m2; auto; right; intros [? ?]; congruence. }
    { cbn in H. injection H as <-. constructor. }
    cbn [marker_loop] in H. destruct m1 as [|a m1], m2 as [|b m2]; [exfalso; auto| | |].
    all: match type of H with bind ?x _ = _ => destruct x as [[[ls n1] c1]| |]; try discriminate end; cbn [bind] in H.
    all: match type of H with bind ?x _ = _ => destruct x as [[[ld n2] c2]| |]; try discriminate end; cbn [bind] in H.
    all: match type of H with bind ?x _ = _ => destruct x as [d| |] eqn:Ec; try discriminate end; cbn [bind] in H.
    all: match type of H with bind ?x _ = _ => destruct x as [ds1| |] eqn:El; try discriminate end; cbn [bind] in H; injection H as <-.
    all: constructor; [|eapply IH; exact El].
    all: unfold compute_diff_stats in Ec; apply inline_connected in Ec; cbn [set_track d_connected].
    all: assert (d_connected d = false) as X by (rewrite Ec; repeat (match goal with |- context [if ?c then _ else _] => destruct c end; try reflexivity)).
    all: unfold apply_quietly; destruct (Bool.eqb _ _); cbn; exact X.
Qed.
Lemma edit_inserted qhash m old new edit m' ins rem : lines_changed qhash m old new edit = Ok (m', ins, rem) ->
  forall i d, In i ins -> nth_error (dm_store m') i = Some d -> d_connected d = false.
Proof.
  intros H. unfold lines_changed in H.
  assert (old = [] /\ new = [] \/ ~ (old = [] /\ new = [])) as [[-> ->]|Hne].
  { destruct old, new; auto; right; intros [? ?]; congruence. }
  - injection H as _ <- _. intros i d [].
  - set (body := bind (deref_all (dm_store m) (dm_diffs m)) _) in H.
    assert (match old with [] => match new with [] => Ok (m, [], []) | _ :: _ => body end | _ :: _ => body end = body) as E.
    { destruct old, new; try reflexivity. exfalso; auto. }
    rewrite E in H. clear E. unfold body in H. clear body. destruct (deref_all (dm_store m) (dm_diffs m)) as [ds| |]; try discriminate. cbn [bind] in H.
    destruct (until (starts_range edit) ds) as [pre rest]. destruct (until (stops_range (edit + Z.of_nat (length old))) rest) as [mid post].
    destruct (region_numbers edit ds rest) as [sl dl].
    destruct (region_lines _ _ _ _ _) as [[src dst]| |]; cbn [bind] in H; try discriminate.
    destruct (create_table _ _) as [r| |]; cbn [bind] in H; try discriminate.
    destruct (create_markers _ _ _ _) as [[m1 m2]| |]; cbn [bind] in H; try discriminate.
    destruct (marker_loop _ _ _ _ _ _ _ _ _ _) as [news| |] eqn:El; cbn [bind] in H; try discriminate.
    destruct (shift_after _ _ _) as [st| |] eqn:Es; cbn [bind] in H; try discriminate. injection H as <- <- _.
    cbn [with_contents dm_store]. intros i d Hi Hd. apply in_seq in Hi.
    apply marker_loop_connected in El. rewrite Forall_forall in El.
    destruct (nth_error_Some_lt news (i - length (dm_store m))) as (d0 & H0); [lia|].
    destruct (shift_after_tracks _ _ _ _ Es i d0) as (t & Et); [rewrite nth_error_app2 by lia; exact H0|].
    rewrite Et in Hd. injection Hd as <-. apply (El d0). eapply nth_error_In; exact H0.
Qed.
Lemma desc_flip b s t S D pre d post : count (d_slines d) = count (d_dlines d) -> describes s t S D (pre ++ d :: post) ->
  exists D', describes s t S D' (pre ++ apply_quietly b d :: post).
Proof.
  intros Ec. revert s t S D. induction pre as [|x pre IH]; intros s t S D H; cbn [app] in *.
  - inversion H as [|? ? same S' D' ? ? E1 E2 H']; subst. set (d' := apply_quietly b d).
    assert (d_src d' = d_src d /\ d_track d' = d_track d /\ d_slines d' = d_slines d /\ count (shown d') = count (shown d)) as (Q1 & Q2 & Q3 & Q4).
    { unfold d', apply_quietly. destruct (Bool.eqb_spec (d_applied d) b); [auto|]. cbn. repeat split. unfold shown. cbn.
      destruct b, (d_applied d); rewrite ?count_lines; congruence || lia. }
    exists (same ++ shown d' ++ D'). rewrite <- Q3. constructor; [congruence|congruence|]. rewrite Q3, Q4. exact H'.
  - inversion H as [|? ? same S' D' ? ? E1 E2 H']; subst. destruct (IH _ _ _ _ H') as (D2 & H2).
    exists (same ++ shown x ++ D2). constructor; assumption.
Qed.

Lemma run_kin : forall ops m m', run m ops = Ok m' -> kin m m'.
Proof.
  induction ops as [|o ops IH]; intros m m' H; cbn [run] in H; [injection H as <-; apply kin_refl|]. step H.
  eapply kin_trans; [|eapply IH; exact H]. clear H. destruct o; cbn [run_op] in E.
  - step E. injection E as <-. unfold set_selected_difference. destruct (sel_eqb _ _); [apply kin_refl|]. destruct (find_id _ _); [apply kin_selection|apply kin_refl].
  - eapply kin_apply; exact E.
  - step E. eapply kin_apply_id; exact E.
  - eapply kin_apply_all; exact E.
  - step E. injection E as <-. eapply kin_save; exact E0.
Qed.
(** C68, what is true. After an edit and any history of applying and saving: an inserted difference, applied or unapplied,
    changes itself and nothing else; so the tracking numbers of the others stay right if it has as many destination lines as
    source lines. *)
Theorem C68_apply_inserted_partial qhash m ds0 old new edit m1 ins rem ops m2 ds i b :
  listed m = Ok ds0 -> NoDup (dm_diffs m) -> lines_changed qhash m old new edit = Ok (m1, ins, rem) ->
  run m1 ops = Ok m2 -> listed m2 = Ok ds -> In i ins ->
  exists pre d post m3, ds = pre ++ d :: post /\ nth_error (dm_store m2) i = Some d /\ apply_id m2 i b = Ok m3 /\ listed m3 = Ok (pre ++ apply_quietly b d :: post) /\
    (forall S D, describes 1 1 S D ds -> count (d_slines d) = count (d_dlines d) -> exists D', describes 1 1 S D' (pre ++ apply_quietly b d :: post)).
Proof.
  intros H0 HN0 H HR HL Hi. destruct (run_kin _ _ _ HR) as [_ _ Kd Ks].
  destruct (report_ok qhash m old new edit m1 ins rem ds0 H H0 HN0) as (_ & i1 & i3 & pre0 & mid0 & post0 & news0 & P).
  assert (NoDup (dm_diffs m2)) as HN by (rewrite Kd; destruct P; assumption).
  assert (In i (dm_diffs m2)) as Hin by (rewrite Kd; destruct P; rewrite rp_new_ids, !in_app_iff; auto). clear P.
  apply in_split in Hin as (l1 & l2 & El). unfold listed in HL. rewrite El in HL.
  apply deref_all_app_ok in HL as (pre & tl & -> & D1 & D2). destruct (deref_all_cons _ _ _ _ D2) as (d & post & -> & Hd & D3).
  rewrite El in HN. destruct (nodup_app_inv _ _ HN) as (_ & HN2 & HX). inversion HN2 as [|? ? HN3 HN4]; subst.
  assert (d_connected d = false) as Hcon.
  { destruct (nth_error_Some_lt (dm_store m1) i) as (d1 & Hd1); [rewrite (PList.Forall2_len _ _ _ Ks); eapply nth_some_lt; exact Hd|].
    pose proof (edit_inserted _ _ _ _ _ _ _ _ H i d1 Hi Hd1) as C1.
    assert (similar d1 d) as (t & a & u & ->); [|exact C1]. clear -Ks Hd Hd1. revert i Hd Hd1.
    induction Ks as [|x y l l' Sxy _ IH]; intros [|i] Hd Hd1; cbn in *; try discriminate; [congruence|eauto]. }
  assert (exists m3, apply_id m2 i b = Ok m3 /\ listed m3 = Ok (pre ++ apply_quietly b d :: post)) as (m3 & E3 & L3).
  { unfold apply_id, deref. rewrite Hd. cbn [bind]. destruct (Bool.eqb_spec (d_applied d) b) as [E|E].
    - exists m2. split; [reflexivity|]. unfold listed. rewrite El, deref_all_app, D1. cbn [bind deref_all]. unfold deref. rewrite Hd. cbn [bind]. rewrite D3.
      cbn [bind]. unfold apply_quietly. destruct (Bool.eqb_spec (d_applied d) b); [reflexivity|contradiction].
    - set (d' := apply_quietly b d). assert (d_connected d' = false) as -> by (unfold d', apply_quietly; destruct (Bool.eqb_spec (d_applied d) b); exact Hcon).
      eexists. split; [reflexivity|]. unfold listed. cbn [with_store with_contents dm_store dm_diffs]. rewrite El, deref_all_app.
      assert (forall l x, deref_all (dm_store m2) l = Ok x -> ~ In i l -> deref_all (update (dm_store m2) i d') l = Ok x) as K.
      { intros l x Ex Hni. rewrite <- Ex. apply deref_all_ext. intros j Hj. apply nth_update_other. intros ->; contradiction. }
      rewrite (K _ _ D1) by (intros X; apply (HX i X); left; reflexivity). cbn [bind deref_all]. unfold deref.
      rewrite nth_update_same by (eapply nth_some_lt; exact Hd). cbn [bind]. rewrite (K _ _ D3 HN3). reflexivity. }
  exists pre, d, post, m3. split; [reflexivity|]. split; [exact Hd|]. split; [exact E3|]. split; [exact L3|]. intros S D HD Ec. eapply desc_flip; eassumption.
Qed.
Print Assumptions C68_apply_inserted_partial.
Example C68_example :
  match lines_changed ex_hash (new_model (lit "a") (lit "b")) [lit "two"] [lit "TWO"] 2 with
  | Ok (m1, ins, rem) => ins = [0%nat] /\ In 0%nat (dm_diffs m1) /\
      match apply_id m1 0 false with Ok m3 => match listed m3 with Ok [d] => d_applied d = false /\ d_track d = 2 | _ => False end | _ => False end
  | _ => False end.
Proof. vm_compute. auto 6. Qed.

(** * C69 *)
(** Another edit of the same line replaces the selected difference: it is not in the list any more and stays selected. *)
Theorem C69_selection_listed_refuted : exists m, do_calls ex_hash (new_model (lit "a") (lit "b"))
    [EditLines [lit "two"] [lit "TWO"] 2; First; EditLines [lit "TWO"] [lit "2"] 2] = Ok m /\
  exists i, dm_sel m = Some i /\ ~ In i (dm_diffs m).
Proof.
  assert (match do_calls ex_hash (new_model (lit "a") (lit "b")) [EditLines [lit "two"] [lit "TWO"] 2; First; EditLines [lit "TWO"] [lit "2"] 2] with
    | Ok m => dm_sel m = Some 0%nat /\ dm_diffs m = [1%nat] | _ => False end) as H by (vm_compute; auto).
  destruct (do_calls _ _ _) as [m| |]; try contradiction. destruct H as [H1 H2]. exists m. split; [reflexivity|]. exists 0%nat. split; [exact H1|].
  rewrite H2. intros [E|[]]; discriminate.
Qed.
Print Assumptions C69_selection_listed_refuted.
(** After an edit that takes the last difference back, asking for the first one is undefined. *)
Theorem C69_first_of_none_refuted : exists why, do_calls ex_hash (new_model (lit "a") (lit "b"))
    [EditLines [lit "two"] [lit "TWO"] 2; First; EditLines [lit "TWO"] [lit "two"] 2; First] = UB why.
Proof. eexists. vm_compute. reflexivity. Qed.
Print Assumptions C69_first_of_none_refuted.

(** After any edit a listed difference is still listed if and only if it is not reported as removed. *)
Theorem C69_listed_unless_removed qhash m old new edit m' ins rem ds :
  lines_changed qhash m old new edit = Ok (m', ins, rem) -> listed m = Ok ds -> NoDup (dm_diffs m) ->
  forall i, In i (dm_diffs m) -> (In i (dm_diffs m') <-> ~ In i rem).
Proof.
  intros H HL HN i Hi. destruct (report_ok qhash m old new edit m' ins rem ds H HL HN) as (Hs & i1 & i3 & pre & mid & post & news & []).
  rewrite rp_old_ids in *. rewrite rp_new_ids, !in_app_iff. destruct (nodup_app_inv _ _ HN) as (_ & N23 & X1). destruct (nodup_app_inv _ _ N23) as (_ & _ & X2).
  split.
  - intros [A|[A|A]] B; [apply (X1 i A), in_app_iff; auto| |apply (X2 i B A)].
    apply rp_fresh in A. pose proof (deref_all_lt _ _ _ rp_mid i B). lia.
  - rewrite !in_app_iff in Hi. tauto.
Qed.
Print Assumptions C69_listed_unless_removed.

(** ** Any history of calls *)
Definition in_store (m : dmodel) (l : list nat) : Prop := forall i, In i l -> (i < length (dm_store m))%nat.
Lemma in_listed m : in_store m (dm_diffs m) -> exists ds, listed m = Ok ds.
Proof.
  unfold listed, in_store. generalize (dm_diffs m) as l. induction l as [|i l IH]; intros H; cbn [deref_all]; [eauto|].
  destruct (nth_error_Some_lt (dm_store m) i) as (d & Hd); [apply H; left; reflexivity|]. unfold deref. rewrite Hd. cbn [bind].
  destruct IH as (ds & ->); [intros j Hj; apply H; right; exact Hj|]. cbn. eauto.
Qed.
Lemma shift_defined line delta : forall l st, (forall i, In i l -> (i < length st)%nat) -> exists st', shift_tracking l line delta st = Ok st'.
Proof.
  induction l as [|i l IH]; intros st H; cbn [shift_tracking]; [eauto|].
  destruct (nth_error_Some_lt st i) as (d & Hd); [apply H; left; reflexivity|]. unfold deref. rewrite Hd. cbn [bind].
  apply IH. intros j Hj. destruct (Z.ltb _ _); rewrite ?update_length; apply H; right; exact Hj.
Qed.
Lemma kin_good m m' : kin m m' -> dm_sel m' = dm_sel m -> dm_index m' = dm_index m -> pointers_good m -> pointers_good m'.
Proof.
  intros [_ Kh Kd Ks] Es Ei (A & B & C & D & E). unfold pointers_good. rewrite Kh, Kd, Es, Ei, <- (PList.Forall2_len _ _ _ Ks). auto.
Qed.
Lemma select_good m k i : pointers_good m -> 0 <= k -> (forall x, i = Some x -> In x (dm_diffs m)) -> pointers_good (with_selection m k i).
Proof. intros (A & B & C & D & E) Hk Hi. unfold pointers_good. cbn. repeat split; auto. Qed.
Lemma at_good m k i : pointers_good m -> 0 <= k -> diff_at m k = Ok i -> pointers_good (with_selection m k (Some i)).
Proof.
  intros G Hk E. apply select_good; auto. intros x [= <-]. unfold diff_at in E. destruct (Z.ltb_spec k 0); [lia|].
  destruct (nth_error (dm_diffs m) (Z.to_nat k)) eqn:N; [|discriminate]. injection E as <-. eapply nth_error_In; exact N.
Qed.
Lemma at_defined m k : 0 <= k < Z.of_nat (length (dm_diffs m)) -> exists i, diff_at m k = Ok i.
Proof.
  intros H. unfold diff_at. destruct (Z.ltb_spec k 0); [lia|]. destruct (nth_error_Some_lt (dm_diffs m) (Z.to_nat k)) as (i & ->); [lia|]. eauto.
Qed.
Lemma set_selected_good m i : pointers_good m -> pointers_good (fst (set_selected_difference m i)).
Proof.
  intros G. unfold set_selected_difference. destruct (sel_eqb _ _); [exact G|]. destruct i as [i|]; [|exact G].
  destruct (find_id i (dm_diffs m)) as [k|] eqn:F; [|exact G]. apply select_good; [exact G|lia|]. intros x [= <-].
  clear G. revert k F. induction (dm_diffs m) as [|j l IH]; intros k F; [discriminate|]. cbn in F. destruct (Nat.eqb_spec i j) as [->|]; [left; reflexivity|].
  right. destruct (find_id i l); [eapply IH; reflexivity|discriminate].
Qed.
Lemma apply_id_state m i b m' : apply_id m i b = Ok m' -> dm_sel m' = dm_sel m /\ dm_index m' = dm_index m.
Proof.
  unfold apply_id. intros H. step H. destruct (Bool.eqb _ _); [injection H as <-; auto|]. destruct (d_connected _); [|injection H as <-; auto].
  unfold slot_difference_applied in H. step H. injection H as <-. auto.
Qed.
Lemma one_call qhash m c : pointers_good m -> respected qhash m c -> exists m', do_call qhash m c = Ok m' /\ pointers_good m'.
Proof.
  intros G R. pose proof G as (A & B & C & D & E). destruct c as [| | | |k|i|b|b|old new line]; cbn [do_call respected] in *.
  - destruct (at_defined m 0) as (i & Ei); [destruct (dm_diffs m); [congruence|cbn; lia]|]. unfold first_difference. rewrite Ei. cbn.
    eexists; split; [reflexivity|]. apply at_good; auto; lia.
  - set (k := Z.of_nat (length (dm_diffs m)) - 1). assert (0 <= k < Z.of_nat (length (dm_diffs m))) as Hk by (unfold k; destruct (dm_diffs m); [congruence|cbn [length]; lia]).
    destruct (at_defined m k Hk) as (i & Ei). unfold last_difference. fold k. rewrite Ei. cbn. eexists; split; [reflexivity|]. apply at_good; auto; lia.
  - unfold next_difference. destruct (Z.ltb_spec (dm_index m + 1) (Z.of_nat (length (dm_diffs m)))).
    + destruct (at_defined m (dm_index m + 1)) as (i & Ei); [lia|]. rewrite Ei. cbn. eexists; split; [reflexivity|]. apply at_good; auto; lia.
    + cbn. eexists; split; [reflexivity|]. apply select_good; auto; [lia|discriminate].
  - unfold prev_difference. destruct (Z.ltb_spec 0 (dm_index m)), (Z.ltb_spec (dm_index m - 1) (Z.of_nat (length (dm_diffs m)))); cbn [andb].
    + destruct (at_defined m (dm_index m - 1)) as (i & Ei); [lia|]. rewrite Ei. cbn. eexists; split; [reflexivity|]. apply at_good; auto; lia.
    + cbn. eexists; split; [reflexivity|]. apply select_good; auto; [lia|discriminate].
    + cbn. eexists; split; [reflexivity|]. apply select_good; auto; [lia|discriminate].
    + cbn. eexists; split; [reflexivity|]. apply select_good; auto; [lia|discriminate].
  - destruct (at_defined m (Z.of_nat k)) as (i & ->); [lia|]. cbn [bind]. eexists; split; [reflexivity|]. apply set_selected_good; exact G.
  - eexists; split; [reflexivity|]. apply set_selected_good; exact G.
  - assert (exists m', apply_difference m b = Ok m' /\ dm_sel m' = dm_sel m /\ dm_index m' = dm_index m) as (m' & Em & E1 & E2).
    { unfold apply_difference. destruct (dm_sel m) as [i|] eqn:Es; [|congruence]. destruct (nth_error_Some_lt (dm_store m) i) as (d & Hd); [auto|].
      unfold deref. rewrite Hd. cbn [bind]. destruct (Bool.eqb (d_applied d) b) eqn:Eb; [eauto|].
      set (m0 := with_applied m _). assert (exists m', apply_id m0 i b = Ok m') as (m' & Em).
      { unfold apply_id, deref. cbn [m0 with_applied dm_store]. rewrite Hd. cbn [bind]. rewrite Eb. destruct (d_connected _); [|eauto].
        unfold slot_difference_applied. cbn [with_store with_contents dm_diffs dm_store].
        match goal with |- context [shift_tracking ?l ?a ?b ?st] => destruct (shift_defined a b l st) as (st' & ->) end; [|cbn; eauto].
        intros j Hj. rewrite update_length. exact (A j Hj). }
      exists m'. split; [exact Em|]. apply apply_id_state in Em. cbn [m0 with_applied dm_sel dm_index] in Em. rewrite <- Es. exact Em. }
    exists m'. split; [exact Em|]. eapply kin_good; [eapply kin_apply; exact Em|exact E1|exact E2|exact G].
  - destruct (in_listed m A) as (ds & HL). unfold listed in HL. destruct (apply_all_ok b (dm_diffs m) (dm_store m) ds 0 HL D) as (st & Es & _ & _).
    assert (exists m', apply_all m b = Ok m' /\ dm_sel m' = dm_sel m /\ dm_index m' = dm_index m) as (m' & Em & E1 & E2).
    { unfold apply_all. cbn [with_applied dm_diffs dm_store]. rewrite Es. cbn. eauto. }
    exists m'. split; [exact Em|]. eapply kin_good; [eapply kin_apply_all; exact Em|exact E1|exact E2|exact G].
  - destruct R as ([[m' ins] rem] & H). rewrite H. cbn [bind fst]. exists m'. split; [reflexivity|].
    destruct (in_listed m A) as (ds & HL). destruct (edit_store _ _ _ _ _ _ _ _ H) as [(ids & st & Em) Hs].
    destruct (report_ok qhash m old new line m' ins rem ds H HL D) as (_ & i1 & i3 & pre & mid & post & news & P). 
    assert (length (dm_store m) <= length (dm_store m'))%nat as Hle.
    { destruct (le_lt_dec (length (dm_store m)) (length (dm_store m'))) as [L|L]; [exact L|]. exfalso.
      destruct (nth_error_Some_lt (dm_store m) (length (dm_store m'))) as (d & Hd); [exact L|]. destruct (Hs _ _ Hd) as (t & Ht). apply nth_some_lt in Ht. lia. }
    assert (in_store m' (dm_diffs m') /\ NoDup (dm_diffs m')) as [X1 X2].
    { destruct P. split; [|].
      - rewrite rp_new_ids. intros i Hi. rewrite !in_app_iff in Hi. destruct Hi as [Hi|[Hi|Hi]].
        + eapply Nat.lt_le_trans; [apply A; rewrite rp_old_ids, !in_app_iff; auto|exact Hle].
        + eapply deref_all_lt; [exact rp_ins'|exact Hi].
        + eapply Nat.lt_le_trans; [apply A; rewrite rp_old_ids, !in_app_iff; auto|exact Hle].
      - assumption. }
    unfold pointers_good. split; [exact X1|]. assert (dm_hunks m' = dm_hunks m /\ dm_sel m' = dm_sel m /\ dm_index m' = dm_index m) as (-> & -> & ->) by (rewrite Em; auto).
    split; [|split; [|split; [exact X2|exact E]]].
    + intros h i Hh Hi. specialize (B h i Hh Hi). lia.
    + intros i Hi. specialize (C i Hi). lia.
Qed.
Theorem C69_calls_defined qhash : forall cs m, pointers_good m -> all_respected qhash m cs ->
  exists m', do_calls qhash m cs = Ok m' /\ pointers_good m'.
Proof.
  induction cs as [|c cs IH]; intros m G R; cbn [do_calls all_respected] in *; [eauto|].
  destruct R as [R1 R2]. destruct (one_call qhash m c G R1) as (m' & Em & G'). rewrite Em. cbn [bind]. apply IH; auto.
Qed.
Print Assumptions C69_calls_defined.
Definition C69_calls : list call :=
  [EditLines [lit "two"] [lit "TWO"] 2; First; Next; SelectAt 0; EditLines [lit "TWO"] [lit "2"] 2; ApplyOne false; ApplyEach true; Prev; SelectOther None; Last; Next].
Example C69_example : pointers_good (new_model (lit "a") (lit "b")) /\
  match do_calls ex_hash (new_model (lit "a") (lit "b")) C69_calls with Ok m => dm_diffs m = [1%nat] /\ length (dm_store m) = 2%nat | _ => False end.
Proof. split; [|vm_compute; auto]. repeat split; cbn; try contradiction; try discriminate; try lia. constructor. Qed.
