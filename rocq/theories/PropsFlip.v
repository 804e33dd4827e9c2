(** C68: exactly when the differences go on describing the text after one of them is applied or unapplied. *)
From Coq Require Import String.
From Verif Require Import Base QtStr Diff Save LinesChanged SpecHistory SpecPatch PHistory PPatch PEditLines PSave PKin PropsEdit PropsCalls.
Local Open Scope Z_scope.

(** The differences that the model moves along with d: d came with the diff (those inserted by edits are not connected to the
    model) and they have greater destination line numbers. *)
Definition moved_along (d e : difference) : Prop := d_connected d = true /\ d_dst d < d_dst e.

Definition gain (d : difference) : Z := if d_applied d then count (d_dlines d) - count (d_slines d) else 0.
Fixpoint gains (ds : list difference) : Z := match ds with [] => 0 | d :: ds' => gain d + gains ds' end.
Lemma gains_app a b : gains (a ++ b) = gains a + gains b.
Proof. induction a as [|x a IH]; cbn [gains app]; lia. Qed.
Lemma count_lines l : count (lines_of l) = count l. Proof. unfold count, lines_of. now rewrite map_length. Qed.
Lemma shown_gain d : count (shown d) = count (d_slines d) + gain d.
Proof. unfold shown, gain. destruct (d_applied d); rewrite count_lines; lia. Qed.
Lemma desc_tracks s t S D ds : describes s t S D ds -> forall pre d post, ds = pre ++ d :: post -> d_track d = d_src d + (t - s) + gains pre.
Proof.
  induction 1 as [s t same | s t same S D d0 ds E1 E2 H IH]; intros pre d post E.
  - destruct pre; discriminate.
  - destruct pre as [|x pre]; cbn [app] in E; injection E as -> E; cbn [gains].
    + lia.
    + rewrite (IH _ _ _ E), shown_gain. lia.
Qed.
(** The same lines at the same places of the source. *)
Definition alike_lines (d e : difference) : Prop := d_src e = d_src d /\ d_slines e = d_slines d /\ d_dlines e = d_dlines d.
Lemma desc_remake s t S D ds : describes s t S D ds -> forall t' ds', Forall2 alike_lines ds ds' ->
  (forall pre d post, ds' = pre ++ d :: post -> d_track d = d_src d + (t' - s) + gains pre) -> exists D', describes s t' S D' ds'.
Proof.
  induction 1 as [s t same | s t same S D d ds E1 E2 H IH]; intros t' ds' F T.
  - inversion F; subst. exists same. constructor.
  - inversion F as [|? e ? es (A1 & A2 & A3) F']; subst.
    destruct (IH (t' + count same + count (shown e)) es F') as (D' & HD).
    { intros pre x post E. rewrite (T (e :: pre) x post) by (cbn; congruence). cbn [gains]. rewrite shown_gain, A2. lia. }
    exists (same ++ shown e ++ D'). rewrite <- A2. constructor; [congruence| |].
    + rewrite (T [] e es eq_refl). cbn [gains]. lia.
    + rewrite A2. exact HD.
Qed.
(** Applying one difference of the list, and what the list is afterwards. *)
Definition moved_by (delta : Z) (d e : difference) : difference := if (d_connected d && Z.ltb (d_dst d) (d_dst e))%bool then set_track (d_track e + delta) e else e.
Lemma apply_listed m pre d post i b : listed m = Ok (pre ++ d :: post) -> NoDup (dm_diffs m) -> nth_error (dm_diffs m) (length pre) = Some i -> d_applied d <> b ->
  exists m', apply_id m i b = Ok m' /\ listed m' = Ok (map (moved_by (difference_delta (apply_quietly b d)) d) pre ++ apply_quietly b d :: map (moved_by (difference_delta (apply_quietly b d)) d) post).
Proof.
  intros L ND N B. unfold listed in L. apply nth_error_split in N as (l1 & l2 & El & Ll). rewrite El in L.
  apply deref_all_app_ok in L as (pre' & tl & E & D1 & D2). destruct (deref_all_cons _ _ _ _ D2) as (d' & post' & -> & Hd & D3).
  assert (LP : length pre' = length pre). { destruct (deref_all_ok _ _ _ D1) as [Q _]. congruence. }
  assert (X : pre' = pre /\ d' = d /\ post' = post).
  { assert (pre' = pre) as ->. { apply (f_equal (firstn (length pre))) in E. rewrite !firstn_app, !LP, !Nat.sub_diag, !firstn_O, !app_nil_r in E. rewrite firstn_all in E. rewrite <- LP, firstn_all in E. congruence. }
    apply app_inv_head in E. injection E as <- <-. auto. }
  destruct X as (-> & -> & ->). rewrite El in ND. destruct (nodup_app_inv _ _ ND) as (_ & HN2 & HX). inversion HN2 as [|? ? HN3 HN4]; subst.
  unfold apply_id, deref. rewrite Hd. cbn [bind]. destruct (Bool.eqb_spec (d_applied d) b) as [Q|Q]; [contradiction|]. set (dq := apply_quietly b d).
  assert (QC : d_connected dq = d_connected d /\ d_dst dq = d_dst d) by (unfold dq, apply_quietly; destruct (Bool.eqb _ _); auto). destruct QC as (QC & QD).
  assert (K : forall l x, deref_all (dm_store m) l = Ok x -> ~ In i l -> deref_all (update (dm_store m) i dq) l = Ok x).
  { intros l x Ex Hni. rewrite <- Ex. apply deref_all_ext. intros j Hj. apply nth_update_other. intros ->; contradiction. }
  assert (LU : deref_all (update (dm_store m) i dq) (dm_diffs m) = Ok (pre ++ dq :: post)).
  { rewrite El, deref_all_app, (K _ _ D1) by (intros Y; apply (HX i Y); left; reflexivity). cbn [bind deref_all]. unfold deref.
    rewrite nth_update_same by (eapply nth_some_lt; exact Hd). cbn [bind]. rewrite (K _ _ D3 HN3). reflexivity. }
  unfold moved_by. rewrite QC. destruct (d_connected d).
  - unfold slot_difference_applied. cbn [with_store with_contents dm_diffs dm_store]. rewrite <- El in ND.
    destruct (shift_ok (d_dst dq) (difference_delta dq) _ _ _ LU ND) as (st' & E1 & _ & E2).
    change (shift_tracking (dm_diffs (with_store m (update (dm_store m) i dq)))) with (shift_tracking (dm_diffs m)).
    change (dm_store (with_store m (update (dm_store m) i dq))) with (update (dm_store m) i dq). rewrite E1. cbn [bind]. eexists. split; [reflexivity|].
    unfold listed. change (dm_diffs (with_store (with_store m (update (dm_store m) i dq)) st')) with (dm_diffs m). change (dm_store (with_store (with_store m (update (dm_store m) i dq)) st')) with st'.
    rewrite E2. f_equal. rewrite map_app. cbn [map andb]. rewrite Z.ltb_irrefl, QD. reflexivity.
  - eexists. split; [reflexivity|]. cbn [andb]. rewrite !map_id. unfold listed. change (dm_diffs (with_store m (update (dm_store m) i dq))) with (dm_diffs m).
    change (dm_store (with_store m (update (dm_store m) i dq))) with (update (dm_store m) i dq). exact LU.
Qed.
Lemma moved_by_along delta d e : delta <> 0 -> (moved_along d e -> d_track (moved_by delta d e) = d_track e + delta) /\ (~ moved_along d e -> d_track (moved_by delta d e) = d_track e).
Proof.
  intros _. unfold moved_by, moved_along. destruct (d_connected d); cbn [andb]; [|split; [intros (Q & _); discriminate|reflexivity]].
  destruct (Z.ltb_spec (d_dst d) (d_dst e)); split; intros Q; cbn; auto; [exfalso; apply Q; auto|destruct Q as (_ & Q); lia].
Qed.
Lemma moved_alike delta d e : alike_lines e (moved_by delta d e) /\ d_applied (moved_by delta d e) = d_applied e.
Proof. unfold moved_by, alike_lines. destruct (_ && _)%bool; cbn; auto. Qed.
Lemma gains_alike delta d ds : gains (map (moved_by delta d) ds) = gains ds.
Proof. induction ds as [|e ds IH]; [reflexivity|]. cbn [map gains]. rewrite IH. f_equal. unfold gain. destruct (moved_alike delta d e) as ((_ & -> & ->) & ->). reflexivity. Qed.
Lemma alike_quietly b d : alike_lines d (apply_quietly b d) /\ d_track (apply_quietly b d) = d_track d.
Proof. unfold apply_quietly, alike_lines. destruct (Bool.eqb _ _); cbn; auto. Qed.
(** Whatever has been edited and applied before: the differences describe a text. differenceAt(k)->apply(b) succeeds, and the
    differences still describe a text if and only if nothing was to be done, or the two sides of the difference have the same
    number of lines, or exactly the differences behind it are moved along. *)
Theorem C68_apply_one_exactly m S D pre d post b :
  listed m = Ok (pre ++ d :: post) -> NoDup (dm_diffs m) -> describes 1 1 S D (pre ++ d :: post) ->
  exists m' ds', run m [ApplyDirect (length pre) b] = Ok m' /\ listed m' = Ok ds' /\
    ((exists D', describes 1 1 S D' ds') <->
     d_applied d = b \/ count (d_slines d) = count (d_dlines d) \/
     Forall (fun e => ~ moved_along d e) pre /\ Forall (moved_along d) post).
Proof.
  intros L ND HD.
  assert (N : exists i, nth_error (dm_diffs m) (length pre) = Some i).
  { apply nth_error_Some_lt. destruct (deref_all_ok _ _ _ L) as [Q _]. rewrite app_length in Q. cbn [length] in Q. lia. }
  destruct N as (i & N). cbn [run run_op]. unfold diff_at. destruct (Z.ltb_spec (Z.of_nat (length pre)) 0); [lia|]. rewrite Nat2Z.id, N. cbn [bind].
  destruct (Bool.bool_dec (d_applied d) b) as [B|B].
  - exists m, (pre ++ d :: post). assert (Hd : nth_error (dm_store m) i = Some d).
    { destruct (deref_all_ok _ _ _ L) as [_ Q]. specialize (Q (length pre) i N). rewrite nth_error_app2, Nat.sub_diag in Q by lia. cbn in Q. destruct Q as (d0 & Q & Q'). injection Q' as ->. exact Q. }
    unfold apply_id, deref. rewrite Hd. cbn [bind]. rewrite B, Bool.eqb_reflx. cbn [bind]. split; [reflexivity|]. split; [exact L|]. split; [auto|]. intros _. exists D. exact HD.
  - destruct (apply_listed m pre d post i b L ND N B) as (m' & E & L'). rewrite E. cbn [bind]. eexists m', _. split; [reflexivity|]. split; [exact L'|].
    set (dq := apply_quietly b d) in *. set (delta := difference_delta dq) in *. destruct (alike_quietly b d) as ((A1 & A2 & A3) & A4). fold dq in A1, A2, A3, A4.
    assert (DQ : d_applied dq = b) by (unfold dq, apply_quietly; destruct (Bool.eqb_spec (d_applied d) b); [contradiction|reflexivity]).
    assert (G : gain dq = gain d + delta).
    { unfold delta, difference_delta, dlc, slc, gain. rewrite DQ, A2, A3. fold (count (d_dlines d)) (count (d_slines d)). destruct b, (d_applied d); try contradiction; lia. }
    assert (Z0 : delta = 0 <-> count (d_slines d) = count (d_dlines d)).
    { unfold delta, difference_delta, dlc, slc. rewrite DQ, A2, A3. fold (count (d_dlines d)) (count (d_slines d)). destruct b; lia. }
    assert (TP : forall p e q, pre = p ++ e :: q -> d_track e = d_src e + gains p).
    { intros p e q ->. rewrite (desc_tracks _ _ _ _ _ HD p e (q ++ d :: post)) by (rewrite <- app_assoc; reflexivity). lia. }
    assert (TD : d_track d = d_src d + gains pre) by (rewrite (desc_tracks _ _ _ _ _ HD pre d post eq_refl); lia).
    assert (TQ : forall p e q, post = p ++ e :: q -> d_track e = d_src e + gains pre + gain d + gains p).
    { intros p e q ->. rewrite (desc_tracks _ _ _ _ _ HD (pre ++ d :: p) e q) by (rewrite <- app_assoc; reflexivity). rewrite gains_app. cbn [gains]. lia. }
    split.
    + intros (D' & HD'). destruct (Z.eq_dec delta 0) as [Q|Q]; [right; left; apply Z0; exact Q|]. right. right. split; apply Forall_forall.
      * intros e I W. apply in_split in I as (p & q & I). pose proof (desc_tracks _ _ _ _ _ HD' (map (moved_by delta d) p) (moved_by delta d e) (map (moved_by delta d) q ++ dq :: map (moved_by delta d) post)) as T.
        rewrite I, map_app, <- app_assoc in T. specialize (T eq_refl). rewrite gains_alike, (proj1 (moved_by_along delta d e Q) W), (TP _ _ _ I) in T. destruct (moved_alike delta d e) as ((T1 & _) & _). rewrite T1 in T. lia.
      * intros e I. apply in_split in I as (p & q & I). pose proof (desc_tracks _ _ _ _ _ HD' (map (moved_by delta d) pre ++ dq :: map (moved_by delta d) p) (moved_by delta d e) (map (moved_by delta d) q)) as T.
        rewrite I, map_app, <- app_assoc in T. specialize (T eq_refl). rewrite gains_app in T. cbn [gains] in T. rewrite !gains_alike in T. destruct (moved_alike delta d e) as ((T1 & _) & _). rewrite T1 in T.
        assert (W : moved_along d e \/ ~ moved_along d e) by (unfold moved_along; destruct (d_connected d), (Z.ltb_spec (d_dst d) (d_dst e)); [left; auto|right; intros (_ & ?); lia|right; intros (? & _); discriminate|right; intros (? & _); discriminate]).
        destruct W as [W|W]; [exact W|]. rewrite (proj2 (moved_by_along delta d e Q) W), (TQ _ _ _ I) in T. lia.
    + intros C. apply (desc_remake _ _ _ _ _ HD 1).
      { apply Forall2_app; [|constructor; [unfold alike_lines; auto|]]; (clear; match goal with |- Forall2 _ ?l _ => induction l as [|e l IH] end; constructor; [apply moved_alike|exact IH]). }
      assert (P0 : Forall (fun e => d_track (moved_by delta d e) = d_track e) pre).
      { destruct (Z.eq_dec delta 0) as [Q|Q]; [apply Forall_forall; intros e _; unfold moved_by; destruct (_ && _)%bool; cbn; lia|]. destruct C as [C|[C|(C & _)]]; [contradiction|exfalso; apply Q, Z0, C|].
        apply Forall_forall. intros e I. apply (moved_by_along delta d e Q). revert e I. apply Forall_forall. exact C. }
      assert (P1 : Forall (fun e => d_track (moved_by delta d e) = d_track e + delta) post).
      { destruct (Z.eq_dec delta 0) as [Q|Q]; [apply Forall_forall; intros e _; unfold moved_by; destruct (_ && _)%bool; cbn; lia|]. destruct C as [C|[C|(_ & C)]]; [contradiction|exfalso; apply Q, Z0, C|].
        apply Forall_forall. intros e I. apply (moved_by_along delta d e Q). revert e I. apply Forall_forall. exact C. }
      intros p x q E0.
      assert (CUT : (exists p0 e q0, pre = p0 ++ e :: q0 /\ p = map (moved_by delta d) p0 /\ x = moved_by delta d e) \/ (p = map (moved_by delta d) pre /\ x = dq) \/
                    exists p0 e q0, post = p0 ++ e :: q0 /\ p = map (moved_by delta d) pre ++ dq :: map (moved_by delta d) p0 /\ x = moved_by delta d e).
      { clear -E0. revert p E0. generalize (moved_by delta d) as f. intros f. induction pre as [|a pre IH]; intros p E0; cbn [map app] in E0.
        - destruct p as [|y p]; cbn [app] in E0; injection E0 as -> E0; [right; left; auto|]. right. right. apply map_eq_app in E0 as (l1 & l2 & -> & <- & E0). destruct l2 as [|e l2]; [discriminate|]. cbn [map] in E0. injection E0 as <- _. exists l1, e, l2. auto.
        - destruct p as [|y p]; cbn [app] in E0; injection E0 as <- E0; [left; exists [], a, pre; auto|]. destruct (IH p E0) as [(p0 & e & q0 & -> & -> & ->)|[(-> & ->)|(p0 & e & q0 & -> & -> & ->)]].
          + left. exists (a :: p0), e, q0. auto.
          + right. left. auto.
          + right. right. exists p0, e, q0. auto. }
      destruct CUT as [(p0 & e & q0 & I & -> & ->)|[(-> & ->)|(p0 & e & q0 & I & -> & ->)]].
      * destruct (moved_alike delta d e) as ((T1 & _) & _). rewrite gains_alike, T1. assert (TE : d_track (moved_by delta d e) = d_track e) by (rewrite Forall_forall in P0; apply P0; rewrite I; apply in_elt). rewrite TE, (TP _ _ _ I). lia.
      * rewrite gains_alike, A4, A1, TD. lia.
      * destruct (moved_alike delta d e) as ((T1 & _) & _). rewrite gains_app. cbn [gains]. rewrite !gains_alike, T1. assert (TE : d_track (moved_by delta d e) = d_track e + delta) by (rewrite Forall_forall in P1; apply P1; rewrite I; apply in_elt). rewrite TE, (TQ _ _ _ I). lia.
Qed.
Print Assumptions C68_apply_one_exactly.
(** For a difference inserted by an edit, whatever was applied and saved after it: exactly if nothing was to be done, or both
    sides have the same number of lines, or it is the last one. *)
Theorem C68_apply_inserted_exactly qhash m ds0 old new edit m1 ins rem ops m2 S D pre d post i b :
  listed m = Ok ds0 -> NoDup (dm_diffs m) -> lines_changed qhash m old new edit = Ok (m1, ins, rem) -> In i ins ->
  run m1 ops = Ok m2 -> listed m2 = Ok (pre ++ d :: post) -> nth_error (dm_diffs m2) (length pre) = Some i -> describes 1 1 S D (pre ++ d :: post) ->
  exists m' ds', run m2 [ApplyDirect (length pre) b] = Ok m' /\ listed m' = Ok ds' /\
    ((exists D', describes 1 1 S D' ds') <-> d_applied d = b \/ count (d_slines d) = count (d_dlines d) \/ post = []).
Proof.
  intros H0 HN0 H Hi HR HL N HD. destruct (run_kin _ _ _ HR) as [_ _ Kd Ks].
  assert (HN : NoDup (dm_diffs m2)). { destruct (report_ok qhash m old new edit m1 ins rem ds0 H H0 HN0) as (_ & i1 & i3 & pre0 & mid0 & post0 & news0 & P). rewrite Kd. destruct P; assumption. }
  assert (Hd : nth_error (dm_store m2) i = Some d).
  { destruct (deref_all_ok _ _ _ HL) as [_ Q]. specialize (Q (length pre) i N). rewrite nth_error_app2, Nat.sub_diag in Q by lia. cbn in Q. destruct Q as (d0 & Q & Q'). injection Q' as ->. exact Q. }
  assert (Hcon : d_connected d = false).
  { destruct (nth_error_Some_lt (dm_store m1) i) as (d1 & Hd1); [rewrite (PList.Forall2_len _ _ _ Ks); eapply nth_some_lt; exact Hd|].
    pose proof (edit_inserted _ _ _ _ _ _ _ _ H i d1 Hi Hd1) as C1.
    assert (similar d1 d) as (t & a & u & ->); [|exact C1]. clear -Ks Hd Hd1. revert i Hd Hd1.
    induction Ks as [|x y l l' Sxy _ IH]; intros [|i] Hd Hd1; cbn in *; try discriminate; [congruence|eauto]. }
  destruct (C68_apply_one_exactly m2 S D pre d post b HL HN HD) as (m' & ds' & E & L & I). exists m', ds'. split; [exact E|]. split; [exact L|]. rewrite I. split.
  - intros [A|[A|(_ & A)]]; auto. right. right. destruct post as [|e post]; [reflexivity|]. inversion A as [|? ? (X & _) _]. congruence.
  - intros [A|[A|A]]; auto. right. right. split; [apply Forall_forall; intros e _ (X & _); congruence|]. rewrite A. constructor.
Qed.
(** The two edits of [C68_edits] give two applied differences that describe the text; the first one has no source line and one
    destination line: after unapplying it they describe no text. *)
Example C68_exactly_example :
  exists m doc d1 d2, run_edits ex_hash (new_model (lit "a") (lit "b")) ex_S C68_edits = Ok (m, doc) /\ listed m = Ok ([] ++ d1 :: [d2]) /\ NoDup (dm_diffs m) /\ describes 1 1 ex_S doc [d1; d2] /\
    ~ (d_applied d1 = false \/ count (d_slines d1) = count (d_dlines d1) \/ Forall (fun e => ~ moved_along d1 e) [] /\ Forall (moved_along d1) [d2]) /\
    (d_applied d2 = false \/ count (d_slines d2) = count (d_dlines d2) \/ Forall (fun e => ~ moved_along d2 e) [d1] /\ Forall (moved_along d2) []).
Proof.
  destruct (C32_any_sequence_of_edits ex_hash ex_S) with (es := C68_edits) (m := new_model (lit "a") (lit "b")) (doc := ex_S) as (m & doc & E & (ds & L & ND & HD & A) & _).
  { repeat constructor. } { exact C32_example_initial. } { repeat constructor. }
  { cbn. unfold count, short, count. cbn. repeat (split; [lia|]); repeat (split; [lia || (repeat constructor; cbn; lia)|]); auto. }
  assert (Q : match run_edits ex_hash (new_model (lit "a") (lit "b")) ex_S C68_edits with
    | Ok (m, doc) => match listed m with Ok [d1; d2] => d_connected d1 = false /\ d_applied d1 = true /\ length (d_slines d1) = 0%nat /\ length (d_dlines d1) = 1%nat /\ length (d_slines d2) = 1%nat /\ length (d_dlines d2) = 1%nat
                 | _ => False end | _ => False end) by (vm_compute; auto 10).
  rewrite E in Q. rewrite L in Q. destruct ds as [|d1 [|d2 [|d3 ds]]]; try contradiction. destruct Q as (Q1 & Q2 & Q3 & Q4 & Q5 & Q6).
  exists m, doc, d1, d2. split; [exact E|]. split; [exact L|]. split; [exact ND|]. split; [exact HD|]. unfold count. split.
  - intros [X|[X|(_ & X)]]; [congruence|lia|]. inversion X as [|? ? (Y & _) _]. congruence.
  - right. left. lia.
Qed.
Print Assumptions C68_apply_inserted_exactly.
