(** C33, which differences an edit removes; C35, what remains true. *)
From Coq Require Import ZifyBool ZifyNat ZifyN String.
From Verif Require Import Base QtStr Lev Diff Save LinesChanged SpecEdit SpecInline SpecHistory SpecPatch PLev PropsLev PHistory PropsHistory PMarkLoop PPatch PEditLines PropsEdit.
Local Open Scope Z_scope.

(** The differences an edit of the lines from [edit] up to [edit_end] (not included) reaches: an applied one whose lines it
    touches or adjoins, an unapplied one that has one of the edited lines or starts where the edit starts. *)
Definition reached (edit edit_end : Z) (d : difference) : Prop :=
  if d_applied d then edit <= d_track d + count (d_dlines d) /\ d_track d <= edit_end
  else (edit < d_track d + count (d_dlines d) \/ d_track d = edit) /\ d_track d < edit_end.
(** Between two differences there is a line of the text. *)
Definition spaced (ds : list difference) : Prop :=
  forall pre d d' post, ds = pre ++ d :: d' :: post -> d_track d + count (shown d) < d_track d'.

Lemma until_spec {A} (f : A -> bool) l : let '(a, b) := until f l in l = a ++ b /\ Forall (fun x => f x = false) a /\ (forall x b', b = x :: b' -> f x = true).
Proof.
  induction l as [|x l IH]; cbn; [split; [reflexivity|split; [constructor|discriminate]]|]. destruct (f x) eqn:E.
  - split; [reflexivity|]. split; [constructor|]. intros y b' Q. injection Q as <- _. exact E.
  - destruct (until f l) as [a b]. destruct IH as (-> & F & G). split; [reflexivity|]. split; [now constructor|exact G].
Qed.
Lemma desc_tail s t S D pre d post : describes s t S D (pre ++ d :: post) -> forall d', In d' post -> d_track d + count (shown d) <= d_track d'.
Proof.
  revert s t S D. induction pre as [|x pre IH]; intros s t S D H; inversion H; subst; [|eapply IH; eassumption]. intros d' I.
  match goal with K : describes _ _ _ _ post |- _ => pose proof (desc_track _ _ _ _ _ K d' I) end. lia.
Qed.
Lemma nodup_at {A} (l : list A) i j x : NoDup l -> nth_error l i = Some x -> nth_error l j = Some x -> i = j.
Proof. intros N H1 H2. apply (proj1 (NoDup_nth_error l) N i j); [eapply nth_some_lt; eassumption|congruence]. Qed.
Lemma in_run {A} (l : list A) a b k x : NoDup l -> nth_error l k = Some x -> (In x (firstn b (skipn a l)) <-> (a <= k < a + b)%nat).
Proof.
  intros N H.
  assert (NS : forall (q : list A) n j, nth_error (skipn n q) j = nth_error q (n + j)).
  { induction q as [|y q IH]; intros n j; destruct n as [|n]; try reflexivity; [destruct j; reflexivity|apply IH]. }
  assert (NF : forall (q : list A) n j, (j < n)%nat -> nth_error (firstn n q) j = nth_error q j).
  { induction q as [|y q IH]; intros n j L; destruct n as [|n]; try lia; [reflexivity|]. destruct j as [|j]; [reflexivity|]. cbn. apply IH. lia. }
  split.
  - intros I. apply In_nth_error in I as [j J]. assert (j < b)%nat by (apply nth_some_lt in J; rewrite firstn_length in J; lia). rewrite NF, NS in J by assumption. rewrite (nodup_at l k (a + j) x N H J). lia.
  - intros L. apply (nth_error_In _ (k - a)). rewrite NF, NS by lia. replace (a + (k - a))%nat with k by lia. exact H.
Qed.
Lemma removed_run qhash m old new edit m' ins rem ds :
  lines_changed qhash m old new edit = Ok (m', ins, rem) -> listed m = Ok ds -> ~ (old = [] /\ new = []) ->
  let '(pre, rest) := until (starts_range edit) ds in let '(mid, post) := until (stops_range (edit + count old)) rest in
  rem = firstn (length mid) (skipn (length pre) (dm_diffs m)).
Proof.
  intros H HL Hne. unfold lines_changed in H. set (body := bind (deref_all (dm_store m) (dm_diffs m)) _) in H.
  assert (E : match old with [] => match new with [] => Ok (m, [], []) | _ :: _ => body end | _ :: _ => body end = body) by (destruct old, new; try reflexivity; exfalso; auto).
  rewrite E in H. clear E. unfold body in H. clear body. unfold listed in HL. rewrite HL in H. cbn [bind] in H. fold (count old) in H.
  destruct (until (starts_range edit) ds) as [pre rest]. destruct (until (stops_range (edit + count old)) rest) as [mid post]. destruct (region_numbers edit ds rest) as [sl dl].
  destruct (region_lines _ _ _ _ _) as [[src dst]| |]; cbn [bind] in H; try discriminate. destruct (create_table _ _) as [r| |]; cbn [bind] in H; try discriminate.
  destruct (create_markers _ _ _ _) as [[m1 m2]| |]; cbn [bind] in H; try discriminate. destruct (marker_loop _ _ _ _ _ _ _ _ _ _) as [news| |]; cbn [bind] in H; try discriminate.
  destruct (shift_after _ _ _); cbn [bind] in H; try discriminate. injection H as _ _ <-. reflexivity.
Qed.
(** Exactly the differences the edit reaches are removed; those it does not reach stay. *)
Theorem C33_removed_are_those_reached qhash m ds S D1 old D2 new m' ins rem :
  listed m = Ok ds -> NoDup (dm_diffs m) -> describes 1 1 S (D1 ++ old ++ D2) ds -> spaced ds ->
  harmless (1 + count D1) ds -> ~ (old = [] /\ new = []) ->
  lines_changed qhash m old new (1 + count D1) = Ok (m', ins, rem) ->
  forall k i d, nth_error (dm_diffs m) k = Some i -> nth_error ds k = Some d ->
  (In i rem <-> reached (1 + count D1) (1 + count D1 + count old) d).
Proof.
  intros HL Hn HD SP Hh Hne H k i d Hi Hd. set (edit := 1 + count D1) in *. pose proof (removed_run _ _ _ _ _ _ _ _ _ H HL Hne) as R.
  pose proof (until_spec (starts_range edit) ds) as U1. destruct (until (starts_range edit) ds) as [pre rest].
  pose proof (until_spec (stops_range (edit + count old)) rest) as U2. destruct (until (stops_range (edit + count old)) rest) as [mid post].
  destruct U1 as (E1 & F1 & G1), U2 as (E2 & F2 & G2). subst rest. rewrite R, (in_run _ _ _ _ _ Hn Hi).
  assert (RE : forall d, reached edit (edit + count old) d <-> starts_range edit d = true /\ stops_range (edit + count old) d = false).
  { intros x. unfold reached, starts_range, stops_range, tracking_end, dlc. fold (count (d_dlines x)). pose proof (count_pos (d_dlines x)). pose proof (count_pos old). destruct (d_applied x); cbn; lia. }
  rewrite RE. assert (CO : 0 <= count old) by apply count_pos. split.
  - intros L. assert (ND : nth_error mid (k - length pre) = Some d) by (rewrite E1, nth_error_app2, nth_error_app1 in Hd by lia; exact Hd). split.
    + destruct mid as [|x mid]; [destruct (k - length pre)%nat; discriminate|]. cbn [app] in *. pose proof (G1 x _ eq_refl) as GX. destruct (k - length pre)%nat as [|j]; cbn in ND; [congruence|].
      assert (I : In d (mid ++ post)) by (apply in_or_app; left; eapply nth_error_In; exact ND). rewrite E1 in HD. pose proof (desc_tail _ _ _ _ _ _ _ HD d I) as T.
      unfold starts_range, tracking_end, dlc in *. fold (count (d_dlines x)) in *. fold (count (d_dlines d)) in *. pose proof (count_pos (d_dlines d)). pose proof (count_pos (shown x)).
      destruct (d_applied x) eqn:AX.
      * unfold shown in T. rewrite AX, count_lines in T. lia.
      * destruct (Hh pre x (mid ++ post) E1 AX) as [Q|[Q|(_ & Q & _)]]; [|lia|lia]. unfold shown in T. rewrite AX, count_lines in T. lia.
    + rewrite Forall_forall in F2. apply F2. eapply nth_error_In. exact ND.
  - intros [ST SO]. destruct (Nat.lt_ge_cases k (length pre)) as [L|L].
    + rewrite E1, nth_error_app1 in Hd by exact L. rewrite Forall_forall in F1. rewrite (F1 d) in ST by (eapply nth_error_In; exact Hd). discriminate.
    + split; [exact L|]. destruct (Nat.lt_ge_cases k (length pre + length mid)) as [L2|L2]; [exact L2|]. exfalso. rewrite E1, !nth_error_app2 in Hd by lia. destruct post as [|x post]; [destruct (k - length pre - length mid)%nat; discriminate|].
      pose proof (G2 x _ eq_refl) as GX. destruct (k - length pre - length mid)%nat as [|j]; cbn in Hd; [congruence|].
      assert (X : ds = (pre ++ mid) ++ x :: post) by (now rewrite <- app_assoc).
      assert (T : d_track x < d_track d).
      { apply nth_error_split in Hd as (l1 & l2 & -> & _). destruct l1 as [|y l1].
        - pose proof (SP _ _ _ _ X). pose proof (count_pos (shown x)). lia.
        - cbn [app] in X. pose proof (SP _ _ _ _ X). rewrite X in HD. change ((pre ++ mid) ++ x :: y :: l1 ++ d :: l2) with ((pre ++ mid) ++ [x] ++ (y :: l1 ++ d :: l2)) in HD. rewrite (app_assoc (pre ++ mid) [x]) in HD.
          pose proof (desc_tail _ _ _ _ _ _ _ HD d (in_elt d l1 l2)). pose proof (count_pos (shown x)). pose proof (count_pos (shown y)). lia. }
      unfold stops_range in *. destruct (d_applied x), (d_applied d); cbn in *; lia.
Qed.
Print Assumptions C33_removed_are_those_reached.
(** An unapplied change of line 2 just before the edited line 3, an applied insertion just after it: the first stays, the
    second is worked into the edit. *)
Definition tch_before : difference := mk_diff Change 2 2 2 [new_ds (lit "two")] [new_ds (lit "zwei")] false false false true.
Definition tch_after : difference := mk_diff Insert 4 4 4 [] [new_ds (lit "more")] true false false true.
Definition tch_model : dmodel := with_contents (new_model (lit "a") (lit "b")) [] [0; 1]%nat [tch_before; tch_after].
Definition tch_S : list str := [lit "one"; lit "two"; lit "three"; lit "four"].
Example C33_reached_example : listed tch_model = Ok [tch_before; tch_after] /\ describes 1 1 tch_S ([lit "one"; lit "two"] ++ [lit "three"] ++ [lit "more"; lit "four"]) [tch_before; tch_after] /\
  spaced [tch_before; tch_after] /\ harmless (1 + count [lit "one"; lit "two"]) [tch_before; tch_after] /\
  match lines_changed ex_hash tch_model [lit "three"] [lit "drei"] 3 with Ok (m', ins, rem) => rem = [1%nat] /\ ins = [2%nat] /\ dm_diffs m' = [0; 2]%nat | _ => False end.
Proof.
  split; [reflexivity|]. split.
  - apply (desc_diff 1 1 [lit "one"] [lit "three"; lit "four"] [lit "three"; lit "more"; lit "four"] tch_before [tch_after]); [reflexivity|reflexivity|].
    apply (desc_diff _ _ [lit "three"] [lit "four"] [lit "four"] tch_after []); [reflexivity|reflexivity|constructor].
  - split; [|split; [|vm_compute; auto]].
    + intros pre d d' post E. destruct pre as [|x [|y [|z pre]]]; cbn in E; try discriminate E. injection E as <- <- _. vm_compute. reflexivity.
    + intros pre d post E AP. destruct pre as [|x [|y [|z pre]]]; cbn in E; try discriminate E.
      * injection E as <- <-. left. reflexivity.
      * injection E as _ <- _. discriminate AP.
Qed.

(** * C34: an edit that changes nothing *)
(** Lines replaced by the same lines, reaching no difference: the list of differences is the same, and nothing is reported. *)
Theorem C34_idle_edit qhash m ds S D1 old D2 :
  listed m = Ok ds -> NoDup (dm_diffs m) -> describes 1 1 S (D1 ++ old ++ D2) ds -> spaced ds -> harmless (1 + count D1) ds ->
  Forall short S -> Forall short (D1 ++ old ++ D2) -> (count old + 1) * (count old + 1) <= Z.of_N limit ->
  (forall d, In d ds -> ~ reached (1 + count D1) (1 + count D1 + count old) d) ->
  exists m', lines_changed qhash m old old (1 + count D1) = Ok (m', [], []) /\ dm_diffs m' = dm_diffs m /\ listed m' = Ok ds.
Proof.
  intros HL Hn HD Hsp Hh HS1 HS2 Hlim HN. destruct old as [|o old0] eqn:EO.
  { exists m. split; [reflexivity|]. split; [reflexivity|exact HL]. }
  rewrite <- EO in *.
  assert (FT : forall d, In d ds -> touched (1 + count D1) (1 + count D1 + count old) d = false).
  { intros d I. destruct (touched _ _ d) eqn:T; [|reflexivity]. exfalso. apply (HN d I). unfold reached. unfold touched in T. rewrite !andb_true_iff in T. destruct T as ((X1 & X2) & X3). rewrite X1. lia. }
  assert (Hf : region_fits ds old old (1 + count D1)).
  { unfold region_fits. cbv zeta. assert (Q : filter (touched (1 + count D1) (1 + count D1 + count old)) ds = []).
    { clear -FT. induction ds as [|d ds IH]; [reflexivity|]. cbn [filter]. rewrite FT by (now left). apply IH. intros x I. apply FT. now right. }
    rewrite Q. cbn [total]. rewrite !Z.add_0_r. exact Hlim. }
  destruct (edit_ok qhash m ds S D1 old D2 old HL Hn HD Hh Hf HS1 HS2)
    as (m' & ins & rem & i1 & i3 & pre & mid & post & news & A & A' & R & R' & B & B' & delta & E & Hs & Hdelta & HR & E1 & E2 & K1 & K2 & K3 & K4 & K5).
  assert (RN : rem = []).
  { destruct rem as [|i rem]; [reflexivity|]. exfalso.
    pose proof (C33_removed_are_those_reached qhash m ds S D1 old D2 old m' ins (i :: rem) HL Hn HD Hsp Hh ltac:(intros [X _]; rewrite EO in X; discriminate X) E) as Q.
    destruct HR. assert (N : nth_error (dm_diffs m) (length i1) = Some i) by (rewrite rp_old_ids, nth_error_app2, Nat.sub_diag by lia; reflexivity).
    destruct (deref_all_ok _ _ _ HL) as [LN _]. destruct (nth_error ds (length i1)) as [d|] eqn:ND.
    - apply (HN d); [eapply nth_error_In; exact ND|]. apply (proj1 (Q _ _ _ N ND)). now left.
    - apply nth_error_None in ND. assert (length i1 < length (dm_diffs m))%nat by (apply nth_error_Some; congruence). lia. }
  exists m'. 
  assert (NW : ins = []).
  { unfold lines_changed in E. set (body := bind (deref_all (dm_store m) (dm_diffs m)) _) in E.
    assert (Eb : match old with [] => match old with [] => Ok (m, [], []) | _ :: _ => body end | _ :: _ => body end = body) by (rewrite EO; reflexivity).
    rewrite Eb in E. unfold body in E. clear Eb body. unfold listed in HL. rewrite HL in E. cbn [bind] in E.
    destruct (until (starts_range (1 + count D1)) ds) as [pre0 rest0] eqn:U1. destruct (until (stops_range (1 + count D1 + Z.of_nat (length old))) rest0) as [mid0 post0] eqn:U2.
    destruct (region_numbers _ ds rest0) as [sl dl].
    pose proof (until_spec (starts_range (1 + count D1)) ds) as Q1. rewrite U1 in Q1. destruct Q1 as [Q1 _].
    pose proof (until_spec (stops_range (1 + count D1 + Z.of_nat (length old))) rest0) as Q2. rewrite U2 in Q2. destruct Q2 as [Q2 _].
    pose proof (proj1 (deref_all_ok _ _ _ HL)) as Hlen.
    assert (M0 : mid0 = []).
    { apply length_zero_iff_nil.
      destruct (region_lines _ _ _ _ _) as [[src dst]| |]; cbn [bind] in E; try discriminate.
      destruct (create_table _ _) as [r| |]; cbn [bind] in E; try discriminate.
      destruct (create_markers _ _ _ _) as [[mk1 mk2]| |]; cbn [bind] in E; try discriminate.
      destruct (marker_loop _ _ _ _ _ _ _ _ _ _) as [nn| |]; cbn [bind] in E; try discriminate.
      destruct (shift_after _ _ _) as [st| |]; cbn [bind] in E; try discriminate. injection E as _ _ Hrem. rewrite RN in Hrem.
      apply (f_equal (@length nat)) in Hrem. rewrite firstn_length, skipn_length in Hrem. rewrite Q1, Q2 in Hlen. rewrite !app_length in Hlen. cbn [length] in Hrem. lia. }
    subst mid0. cbn [filter region_lines bind] in E.
    assert (AR : (area old old <= limit)%N) by (unfold area; unfold count in Hlim; lia).
    destruct (C10_line_markers_minimal_script qhash new_table old old AR) as (d & t' & m1 & m2 & C1 & C2 & C3 & C4 & C5 & C6 & C7).
    rewrite C1 in E. cbn [bind snd] in E. rewrite C2 in E. cbn [bind] in E.
    assert (HO : Forall short old) by (apply Forall_app in HS2 as [_ HS2]; now apply Forall_app in HS2 as [HS2 _]).
    destruct (loop_ok sl dl (Z.of_nat (length old + length old + 1)) (length m1 + length m2) m1 m2 [] old [] old) as (nn & L1 & L2 & L3 & L4 & L5);
      [cbn [app]; unfold count; lia|exact C4|exact C5|exact C6|lia|exact HO|exact HO|].
    cbn [app] in L1. rewrite !count_nil in L1. rewrite L1 in E. cbn [bind] in E.
    cbn [length] in L5. fold (changed_count m1 old) in L5. fold (changed_count m2 old) in L5. rewrite C7 in L5.
    assert (D0 : d = 0%nat).
    { destruct C3 as [_ C3]. assert (H0' : SpecEdit.edit false old old 0) by (clear; induction old; constructor; assumption). specialize (C3 0%nat H0'). lia. }
    assert (NN : nn = []).
    { destruct nn as [|x nn]; [reflexivity|]. exfalso. inversion L3 as [|? ? (_ & _ & Hp) _]; subst. cbn [total] in L5.
      pose proof (total_pos size_of nn ltac:(intros y; unfold size_of; pose proof (count_pos (d_slines y)); pose proof (count_pos (d_dlines y)); lia)).
      pose proof (proper_size x Hp). lia. }
    subst nn. cbn [length seq] in E. destruct (shift_after _ _ _) as [st| |]; cbn [bind] in E; try discriminate. now injection E as _ <- _. }
  subst ins rem. split; [exact E|].
  destruct (C33_report_is_exact qhash m old old (1 + count D1) m' [] [] ds E HL Hn) as (_ & b & a & db & dr & da & di & I1 & I2 & I3 & I4 & I5 & I6 & I7 & I8 & _).
  cbn [app] in I1, I2. split; [congruence|]. cbn in I4, I5. injection I4 as <-. injection I5 as <-. cbn [app] in I3, I6. rewrite I6, I3. f_equal. f_equal.
  rewrite Z.sub_diag. clear. induction da as [|d da IH]; [reflexivity|]. cbn [map]. f_equal; [|exact IH]. unfold moved. destruct d; cbn. unfold set_track; cbn. f_equal. lia.
Qed.
Print Assumptions C34_idle_edit.
(** The first line, before both differences of that model: it is not reached. *)
Example C34_idle_example : harmless (1 + count (@nil str)) [tch_before; tch_after] /\
  (forall d, In d [tch_before; tch_after] -> ~ reached (1 + count (@nil str)) (1 + count (@nil str) + count [lit "one"]) d) /\
  exists m', lines_changed ex_hash tch_model [lit "one"] [lit "one"] 1 = Ok (m', [], []) /\ dm_diffs m' = [0; 1]%nat /\ listed m' = Ok [tch_before; tch_after].
Proof.
  split; [|split].
  - intros pre d post E AP. destruct pre as [|x [|y [|z pre]]]; cbn in E; try discriminate E.
    + injection E as <- <-. left. reflexivity.
    + injection E as _ <- _. discriminate AP.
  - intros d [<-|[<-|[]]] R; unfold reached in R; cbn in R; lia.
  - eexists. split; [vm_compute; reflexivity|]. split; vm_compute; reflexivity.
Qed.
