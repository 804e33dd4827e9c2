From Coq Require Import ZifyBool ZifyNat ZifyN String.
From Verif Require Import Base QtStr Lev Diff Save SpecHistory.
Local Open Scope Z_scope.

(** * Lists and stores *)
Lemma update_length {A} (l : list A) i v : length (update l i v) = length l.
Proof. revert i; induction l as [|x l IH]; intros [|i]; cbn; auto. Qed.
Lemma nth_update_same {A} (l : list A) i v : (i < length l)%nat -> nth_error (update l i v) i = Some v.
Proof. revert i; induction l as [|x l IH]; intros [|i] H; cbn in *; try lia; auto. apply IH. lia. Qed.
Lemma nth_update_other {A} (l : list A) i j v : i <> j -> nth_error (update l i v) j = nth_error l j.
Proof. revert i j; induction l as [|x l IH]; intros [|i] [|j] H; cbn; auto; try congruence. Qed.
Lemma nth_error_ext {A} (l l' : list A) : (forall k, nth_error l k = nth_error l' k) -> l = l'.
Proof.
  revert l'; induction l as [|x l IH]; intros [|y l'] H; [reflexivity|specialize (H O); discriminate|specialize (H O); discriminate|].
  f_equal; [specialize (H O); cbn in H; congruence|]. apply IH. intros k. apply (H (S k)).
Qed.
Lemma nth_some_lt {A} (l : list A) i x : nth_error l i = Some x -> (i < length l)%nat.
Proof. intros H. apply nth_error_Some. congruence. Qed.

Lemma deref_all_ok st l ds : deref_all st l = Ok ds ->
  length ds = length l /\ forall k i, nth_error l k = Some i -> exists d, nth_error st i = Some d /\ nth_error ds k = Some d.
Proof.
  revert ds; induction l as [|i l IH]; intros ds H; cbn in H.
  - injection H as <-. split; [reflexivity|]. intros [|k] i; discriminate.
  - unfold deref in H. destruct (nth_error st i) as [d|] eqn:E; [|discriminate]. cbn in H.
    destruct (deref_all st l) as [ds'| |] eqn:E'; try discriminate. injection H as <-.
    destruct (IH ds' eq_refl) as [H1 H2]. split; [cbn; congruence|].
    intros [|k] j; cbn; [intros Ej; injection Ej as <-; eauto|apply H2].
Qed.
Lemma deref_all_intro st l ds : length ds = length l ->
  (forall k i, nth_error l k = Some i -> exists d, nth_error st i = Some d /\ nth_error ds k = Some d) ->
  deref_all st l = Ok ds.
Proof.
  revert ds; induction l as [|i l IH]; intros [|d ds] Hl H; cbn in Hl; try discriminate; cbn.
  - reflexivity.
  - destruct (H 0%nat i eq_refl) as (d' & H1 & H2). cbn in H2. injection H2 as ->.
    unfold deref. rewrite H1. cbn. rewrite (IH ds); [reflexivity|congruence|].
    intros k j Hk. apply (H (S k) j). exact Hk.
Qed.
Lemma deref_all_ext st st' l : (forall i, In i l -> nth_error st' i = nth_error st i) ->
  deref_all st' l = deref_all st l.
Proof.
  induction l as [|i l IH]; intros H; cbn; [reflexivity|].
  unfold deref. rewrite (H i) by (left; reflexivity). rewrite IH by (intros; apply H; right; assumption). reflexivity.
Qed.
Lemma deref_all_cons st i l ds : deref_all st (i :: l) = Ok ds ->
  exists d ds', ds = d :: ds' /\ nth_error st i = Some d /\ deref_all st l = Ok ds'.
Proof.
  cbn. unfold deref. destruct (nth_error st i) as [d|]; [|discriminate]. cbn.
  destruct (deref_all st l) as [ds'| |]; try discriminate. intros H; injection H as <-. eauto.
Qed.
Lemma deref_all_update st l ds k i v : deref_all st l = Ok ds -> NoDup l -> nth_error l k = Some i ->
  deref_all (update st i v) l = Ok (update ds k v).
Proof.
  intros H Hn Hk. destruct (deref_all_ok _ _ _ H) as [H1 H2].
  apply deref_all_intro; [rewrite update_length; exact H1|].
  intros k' i' Hk'. destruct (H2 k' i' Hk') as (d & Hd & Hds).
  destruct (Nat.eq_dec k k') as [<-|Hne].
  - assert (i = i') as <- by congruence. exists v. split; apply nth_update_same.
    + eapply nth_some_lt; exact Hd.
    + eapply nth_some_lt; exact Hds.
  - assert (i <> i').
    { intros <-. apply Hne. eapply NoDup_nth_error; [exact Hn|eapply nth_some_lt; exact Hk|congruence]. }
    exists d. rewrite !nth_update_other by assumption. auto.
Qed.

(** Loops over the listed ids that rewrite each object act as maps on the view. *)
Definition frame (l : list nat) (st st' : list difference) : Prop :=
  length st' = length st /\ forall i, ~ In i l -> nth_error st' i = nth_error st i.
Lemma frame_refl l st : frame l st st. Proof. split; auto. Qed.
Lemma frame_trans l st st' st'' : frame l st st' -> frame l st' st'' -> frame l st st''.
Proof. intros [H1 H2] [H3 H4]. split; [congruence|]. intros i Hi. rewrite H4, H2 by assumption. reflexivity. Qed.
Lemma frame_update l st i v : In i l -> frame l st (update st i v).
Proof. intros Hi. split; [apply update_length|]. intros j Hj. apply nth_update_other. intros ->; contradiction. Qed.
Lemma frame_weaken l l' st st' : (forall i, In i l -> In i l') -> frame l st st' -> frame l' st st'.
Proof. intros H [H1 H2]. split; [exact H1|]. intros i Hi. apply H2. auto. Qed.

Lemma shift_ok line delta : forall l st ds, deref_all st l = Ok ds -> NoDup l ->
  exists st', shift_tracking l line delta st = Ok st' /\ frame l st st' /\
    deref_all st' l = Ok (map (fun c => if Z.ltb line (d_dst c) then set_track (d_track c + delta) c else c) ds).
Proof.
  induction l as [|i l IH]; intros st ds H Hn.
  - cbn in H. injection H as <-. exists st. repeat split; auto.
  - destruct (deref_all_cons _ _ _ _ H) as (d & ds' & -> & Hd & H').
    inversion Hn as [|? ? Hni Hn']; subst. cbn [shift_tracking]. unfold deref. rewrite Hd. cbn [bind].
    set (v := if Z.ltb line (d_dst d) then set_track (d_track d + delta) d else d).
    set (st1 := if Z.ltb line (d_dst d) then update st i (set_track (d_track d + delta) d) else st).
    assert (nth_error st1 i = Some v /\ frame (i :: l) st st1 /\ forall j, j <> i -> nth_error st1 j = nth_error st j) as (E1 & F1 & O1).
    { unfold st1, v. destruct (Z.ltb line (d_dst d)).
      - split; [apply nth_update_same; eapply nth_some_lt; exact Hd|]. split; [apply frame_update; left; reflexivity|].
        intros j Hj. apply nth_update_other. congruence.
      - split; [exact Hd|]. split; [apply frame_refl|auto]. }
    destruct (IH st1 ds') as (st2 & E2 & F2 & D2); [|exact Hn'|].
    { rewrite <- H'. apply deref_all_ext. intros j Hj. apply O1. intros ->; contradiction. }
    exists st2. split; [exact E2|]. split.
    + eapply frame_trans; [exact F1|]. eapply frame_weaken; [|exact F2]. intros; right; assumption.
    + cbn [map]. cbn [deref_all]. unfold deref. destruct F2 as [_ F2]. rewrite (F2 i Hni), E1. cbn [bind].
      rewrite D2. reflexivity.
Qed.

Lemma clear_ok : forall l st ds, deref_all st l = Ok ds -> NoDup l ->
  exists st', clear_unsaved l st = Ok st' /\ frame l st st' /\
    deref_all st' l = Ok (map (set_unsaved false) ds).
Proof.
  induction l as [|i l IH]; intros st ds H Hn.
  - cbn in H. injection H as <-. exists st. repeat split; auto.
  - destruct (deref_all_cons _ _ _ _ H) as (d & ds' & -> & Hd & H').
    inversion Hn as [|? ? Hni Hn']; subst. cbn [clear_unsaved]. unfold deref. rewrite Hd. cbn [bind].
    destruct (IH (update st i (set_unsaved false d)) ds') as (st2 & E2 & F2 & D2); [|exact Hn'|].
    { rewrite <- H'. apply deref_all_ext. intros j Hj. apply nth_update_other. intros ->; contradiction. }
    exists st2. split; [exact E2|]. split.
    + eapply frame_trans; [apply frame_update; left; reflexivity|]. eapply frame_weaken; [|exact F2]. intros; right; assumption.
    + cbn [map deref_all]. unfold deref. destruct F2 as [_ F2]. rewrite (F2 i Hni).
      rewrite nth_update_same by (eapply nth_some_lt; exact Hd). cbn [bind]. rewrite D2. reflexivity.
Qed.

(** The pure version of the apply-all loop. *)
Fixpoint apply_all_view (b : bool) (total : Z) (ds : list difference) : list difference :=
  match ds with
  | [] => []
  | d :: ds' =>
      let d := set_track (d_track d + total) d in
      if Bool.eqb (d_applied d) b then d :: apply_all_view b total ds'
      else let d := apply_quietly b d in d :: apply_all_view b (total + difference_delta d) ds'
  end.
Lemma apply_all_ok b : forall l st ds total, deref_all st l = Ok ds -> NoDup l ->
  exists st', apply_all_loop l b total st = Ok st' /\ frame l st st' /\
    deref_all st' l = Ok (apply_all_view b total ds).
Proof.
  induction l as [|i l IH]; intros st ds total H Hn.
  - cbn in H. injection H as <-. exists st. repeat split; auto.
  - destruct (deref_all_cons _ _ _ _ H) as (d & ds' & -> & Hd & H').
    inversion Hn as [|? ? Hni Hn']; subst. cbn [apply_all_loop apply_all_view]. unfold deref. rewrite Hd. cbn [bind].
    set (d1 := set_track (d_track d + total) d).
    assert (forall v tot, exists st', apply_all_loop l b tot (update st i v) = Ok st' /\ frame (i :: l) st st' /\
              deref_all st' (i :: l) = Ok (v :: apply_all_view b tot ds')) as Hgen.
    { intros v tot. destruct (IH (update st i v) ds' tot) as (st2 & E2 & F2 & D2); [|exact Hn'|].
      { rewrite <- H'. apply deref_all_ext. intros j Hj. apply nth_update_other. intros ->; contradiction. }
      exists st2. split; [exact E2|]. split.
      + eapply frame_trans; [apply frame_update; left; reflexivity|]. eapply frame_weaken; [|exact F2]. intros; right; assumption.
      + cbn [deref_all]. unfold deref. destruct F2 as [_ F2]. rewrite (F2 i Hni).
        rewrite nth_update_same by (eapply nth_some_lt; exact Hd). cbn [bind]. rewrite D2. reflexivity. }
    destruct (Bool.eqb (d_applied d1) b); apply Hgen.
Qed.

(** * The expected view *)
Fixpoint expect (shift : Z) (ds : list difference) (fs ss : list bool) : list difference :=
  match ds, fs, ss with
  | d :: ds', f :: fs', s :: ss' =>
      restate d (d_src d + shift) f (xorb f s) ::
      expect (shift + (if f : bool then dlc d - slc d else 0)) ds' fs' ss'
  | _, _, _ => []
  end.
Lemma expect_length shift ds fs ss : length fs = length ds -> length ss = length ds ->
  length (expect shift ds fs ss) = length ds.
Proof.
  revert shift fs ss; induction ds as [|d ds IH]; intros shift [|f fs] [|s ss] H1 H2; cbn in *; try lia.
  rewrite IH by lia. reflexivity.
Qed.
Lemma expect_nth shift ds fs ss k d f s :
  nth_error ds k = Some d -> nth_error fs k = Some f -> nth_error ss k = Some s ->
  nth_error (expect shift ds fs ss) k = Some (restate d (d_src d + shift + gained ds fs k) f (xorb f s)).
Proof.
  revert shift ds fs ss; induction k as [|k IH]; intros shift [|d0 ds] [|f0 fs] [|s0 ss] H1 H2 H3; cbn in *; try discriminate.
  - injection H1 as ->. injection H2 as ->. injection H3 as ->. rewrite Z.add_0_r. reflexivity.
  - rewrite (IH _ _ _ _ H1 H2 H3). f_equal. f_equal. lia.
Qed.
Lemma dst_restate d t f u : d_dst (restate d t f u) = d_dst d. Proof. reflexivity. Qed.

Lemma increasing_tail x l : increasing (x :: l) -> increasing l.
Proof. destruct l; cbn; tauto. Qed.
Lemma increasing_head x l : increasing (x :: l) -> forall y, In y l -> x < y.
Proof.
  revert x; induction l as [|z l IH]; intros x H y Hy; [destruct Hy|].
  cbn in H. destruct H as [H1 H2]. destruct Hy as [<-|Hy]; [exact H1|].
  specialize (IH z H2 y Hy). lia.
Qed.

Definition bump (line delta : Z) (c : difference) :=
  if Z.ltb line (d_dst c) then set_track (d_track c + delta) c else c.
(** All later: every tracking number moves. *)
Lemma bump_all line delta ds : forall shift fs ss,
  (forall d, In d ds -> line < d_dst d) ->
  map (bump line delta) (expect shift ds fs ss) = expect (shift + delta) ds fs ss.
Proof.
  induction ds as [|d ds IH]; intros shift [|f fs] [|s ss] H; cbn [expect map]; try reflexivity.
  rewrite IH by (intros; apply H; right; assumption).
  unfold bump at 1. rewrite dst_restate.
  assert (Z.ltb line (d_dst d) = true) as -> by (apply Z.ltb_lt; apply H; left; reflexivity).
  unfold set_track, restate; cbn. f_equal; [f_equal; lia|]. f_equal. lia.
Qed.

(** Applying position k. *)
Lemma apply_view ds : forall k d f s shift fs ss,
  increasing (map d_dst ds) ->
  nth_error ds k = Some d -> nth_error fs k = Some f -> nth_error ss k = Some s ->
  let b := negb f in
  let d1 := restate d (d_src d + shift + gained ds fs k) b (xorb b s) in
  map (bump (d_dst d) (if b : bool then dlc d - slc d else - (dlc d - slc d)))
      (update (expect shift ds fs ss) k d1) = expect shift ds (update fs k b) ss.
Proof.
  induction ds as [|d0 ds IH]; intros k d f s shift fs ss Hinc Hd Hf Hs; [destruct k; discriminate|].
  destruct fs as [|f0 fs]; [destruct k; discriminate|]. destruct ss as [|s0 ss]; [destruct k; discriminate|].
  destruct k as [|k]; cbn [nth_error] in Hd, Hf, Hs.
  - injection Hd as ->. injection Hf as ->. injection Hs as ->. cbn [expect update map gained].
    unfold bump at 1. rewrite dst_restate, Z.ltb_irrefl.
    rewrite bump_all.
    + f_equal; [f_equal; lia|]. f_equal. destruct f; cbn; lia.
    + intros d' Hd'. eapply increasing_head; [exact Hinc|]. apply in_map. exact Hd'.
  - cbn [expect update map gained]. unfold bump at 1. rewrite dst_restate.
    assert (d_dst d0 < d_dst d) as Hlt.
    { eapply increasing_head; [exact Hinc|]. apply in_map. eapply nth_error_In; exact Hd. }
    assert (Z.ltb (d_dst d) (d_dst d0) = false) as -> by lia.
    f_equal. apply increasing_tail in Hinc.
    specialize (IH k d f s (shift + (if f0 then dlc d0 - slc d0 else 0)) fs ss Hinc Hd Hf Hs). cbn in IH.
    rewrite <- IH. f_equal. f_equal. f_equal. lia.
Qed.

Lemma apply_quietly_restate d t f u b : f <> b -> apply_quietly b (restate d t f u) = restate d t b (negb u).
Proof. intros H. unfold apply_quietly; cbn. destruct f, b; try congruence; reflexivity. Qed.

Lemma apply_all_expect b ds : forall fs ss shift total,
  length fs = length ds -> length ss = length ds ->
  apply_all_view b total (expect shift ds fs ss) = expect (shift + total) ds (map (fun _ => b) fs) ss.
Proof.
  induction ds as [|d ds IH]; intros [|f fs] [|s ss] shift total H1 H2; cbn in H1, H2; try lia; [reflexivity|].
  cbn [expect apply_all_view map].
  change (set_track (d_track (restate d (d_src d + shift) f (xorb f s)) + total) (restate d (d_src d + shift) f (xorb f s)))
    with (restate d (d_src d + shift + total) f (xorb f s)).
  destruct (Bool.eqb (d_applied (restate d (d_src d + shift + total) f (xorb f s))) b) eqn:E.
  - cbn in E. apply Bool.eqb_prop in E. subst f. f_equal; [f_equal; lia|].
    rewrite IH by lia. f_equal. lia.
  - cbn in E. apply Bool.eqb_false_iff in E. rewrite apply_quietly_restate by exact E.
    f_equal.
    + f_equal; [lia|]. destruct f, b, s; try congruence; reflexivity.
    + rewrite IH by lia. f_equal. unfold difference_delta, dlc, slc. cbn [restate d_applied d_slines d_dlines]. destruct f, b; try congruence; lia.
Qed.

Lemma map_unsaved_expect ds : forall fs ss shift, length fs = length ds -> length ss = length ds ->
  map (set_unsaved false) (expect shift ds fs ss) = expect shift ds fs fs.
Proof.
  induction ds as [|d ds IH]; intros [|f fs] [|s ss] shift H1 H2; cbn in H1, H2; try lia; [reflexivity|].
  cbn [expect map]. rewrite IH by lia. unfold set_unsaved, restate; cbn. rewrite xorb_nilpotent. reflexivity.
Qed.
Lemma unsaved_expect ds : forall fs ss shift, length fs = length ds -> length ss = length ds ->
  existsb d_unsaved (expect shift ds fs ss) = false -> fs = ss.
Proof.
  induction ds as [|d ds IH]; intros [|f fs] [|s ss] shift H1 H2 H; cbn in H1, H2; try lia; [reflexivity|].
  cbn in H. apply orb_false_iff in H as [H3 H4]. apply xorb_eq in H3 as ->. f_equal. apply (IH fs ss _ ltac:(lia) ltac:(lia) H4).
Qed.

(** * One operation *)
Record sim (m0 : dmodel) (ds : list difference) (m : dmodel) (s : flags) : Prop := {
  sim_view : deref_all (dm_store m) (dm_diffs m) = Ok (expect 0 ds (f_now s) (f_saved s));
  sim_rest : same_rest m0 m;
  sim_nodup : NoDup (dm_diffs m);
  sim_hunks : forall h, In h (dm_hunks m) -> forall i, In i (h_diffs h) -> (i < length (dm_store m))%nat;
  sim_len1 : length (f_now s) = length ds;
  sim_len2 : length (f_saved s) = length ds;
  sim_sel : match f_sel s with
            | Some k => (k < length ds)%nat /\ dm_sel m = nth_error (dm_diffs m) k
            | None => dm_sel m = None
            end }.

Lemma same_rest_store m0 m st : same_rest m0 m -> frame (dm_diffs m) (dm_store m) st ->
  same_rest m0 (with_store m st).
Proof.
  unfold same_rest, with_store, with_contents; cbn. intros (H1 & H2 & H3 & H4 & H5 & H6 & H7 & H8 & H9 & H10 & H11 & H12 & H13 & H14 & H15) [F1 F2].
  repeat split; try assumption; [congruence|].
  intros i Hi. rewrite F2 by (rewrite H12; exact Hi). apply H15. exact Hi.
Qed.

Lemma in_nth {A} (l : list A) i : In i l -> exists k, nth_error l k = Some i.
Proof. apply In_nth_error. Qed.

Lemma find_id_nodup l k i : NoDup l -> nth_error l k = Some i -> find_id i l = Some k.
Proof.
  revert k; induction l as [|j l IH]; intros k Hn Hk; [destruct k; discriminate|].
  inversion Hn; subst. destruct k as [|k]; cbn in *.
  - injection Hk as ->. rewrite Nat.eqb_refl. reflexivity.
  - destruct (Nat.eqb_spec i j) as [->|]; [exfalso; apply H1; eapply nth_error_In; exact Hk|].
    rewrite (IH k) by assumption. reflexivity.
Qed.

Lemma nth_error_Some_lt {A} (l : list A) k : (k < length l)%nat -> exists x, nth_error l k = Some x.
Proof. intros H. destruct (nth_error l k) eqn:E; [eauto|]. apply nth_error_None in E. lia. Qed.

Lemma update_same_value {A} (l : list A) k x : nth_error l k = Some x -> update l k x = l.
Proof. revert k; induction l as [|y l IH]; intros [|k] H; cbn in *; try discriminate; [congruence|]. rewrite IH by exact H. reflexivity. Qed.

Lemma apply_id_sim m0 ds m s k b :
  increasing (map d_dst ds) -> (forall d, In d ds -> d_connected d = true) ->
  sim m0 ds m s -> (k < length ds)%nat ->
  exists i m' , nth_error (dm_diffs m) k = Some i /\ apply_id m i b = Ok m' /\
    sim m0 ds m' (mk_flags (update (f_now s) k b) (f_saved s) (f_sel s)) /\ dm_applied m' = dm_applied m.
Proof.
  intros Hinc Hconn [V R ND HH L1 L2 SL] Hk.
  destruct (deref_all_ok _ _ _ V) as [Hlen Hnth]. rewrite expect_length in Hlen by assumption.
  destruct (nth_error_Some_lt (dm_diffs m) k) as [i Hi]; [lia|].
  destruct (nth_error_Some_lt ds k Hk) as [d Hd].
  destruct (nth_error_Some_lt (f_now s) k) as [f Hf]; [lia|].
  destruct (nth_error_Some_lt (f_saved s) k) as [sv Hs]; [lia|].
  destruct (Hnth k i Hi) as (dd & Hst & Hv). rewrite (expect_nth _ _ _ _ _ _ _ _ Hd Hf Hs) in Hv. injection Hv as <-.
  rewrite Z.add_0_r in Hst.
  exists i. unfold apply_id, deref. rewrite Hst. cbn [bind].
  destruct (Bool.eqb (d_applied (restate d (d_src d + gained ds (f_now s) k) f (xorb f sv))) b) eqn:E.
  - cbn in E. apply Bool.eqb_prop in E. subst f. exists m. split; [exact Hi|]. split; [reflexivity|]. split; [|reflexivity].
    rewrite (update_same_value _ _ _ Hf). destruct s; constructor; assumption.
  - cbn in E. apply Bool.eqb_false_iff in E. assert (b = negb f) as -> by (destruct f, b; cbn; congruence).
    rewrite apply_quietly_restate by exact E. cbn [d_connected restate].
    rewrite (Hconn d) by (eapply nth_error_In; exact Hd).
    set (d1 := restate d (d_src d + gained ds (f_now s) k) (negb f) (negb (xorb f sv))).
    unfold slot_difference_applied.
    change (dm_diffs (with_store m (update (dm_store m) i d1))) with (dm_diffs m).
    change (dm_store (with_store m (update (dm_store m) i d1))) with (update (dm_store m) i d1).
    pose proof (deref_all_update _ _ _ _ _ d1 V ND Hi) as V1.
    destruct (shift_ok (d_dst d1) (difference_delta d1) _ _ _ V1 ND) as (st' & -> & F & V2). cbn [bind].
    exists (with_store (with_store m (update (dm_store m) i d1)) st'). split; [exact Hi|]. split; [reflexivity|].
    split; [|reflexivity].
    assert (frame (dm_diffs m) (dm_store m) st') as F'.
    { eapply frame_trans; [|exact F]. apply frame_update. eapply nth_error_In; exact Hi. }
    constructor; cbn [dm_store dm_diffs dm_hunks dm_sel with_store with_contents f_now f_saved f_sel].
    + rewrite V2. f_equal.
      pose proof (apply_view ds k d f sv 0 (f_now s) (f_saved s) Hinc Hd Hf Hs) as AV. cbn in AV.
      rewrite Z.add_0_r in AV. unfold bump in AV.
      replace (xorb (negb f) sv) with (negb (xorb f sv)) in AV by (destruct f, sv; reflexivity).
      fold d1 in AV. rewrite <- AV. 
      replace (difference_delta d1) with (if negb f then dlc d - slc d else - (dlc d - slc d)) by reflexivity.
      reflexivity.
    + apply (same_rest_store m0 m st' R F').
    + exact ND.
    + intros h Hh j Hj. destruct F' as [F1 _]. rewrite F1. eapply HH; eauto.
    + rewrite update_length. exact L1.
    + exact L2.
    + exact SL.
Qed.

Lemma saved_lines_ok st hs : (forall h, In h hs -> forall i, In i (h_diffs h) -> (i < length st)%nat) ->
  exists l, saved_lines st hs = Ok l.
Proof.
  induction hs as [|h hs IH]; intros H; cbn; [eauto|].
  assert (exists ds, deref_all st (h_diffs h) = Ok ds) as [ds E].
  { specialize (H h (or_introl eq_refl)). induction (h_diffs h) as [|i l IHl]; cbn; [eauto|].
    unfold deref. destruct (nth_error_Some_lt st i) as [d Hd]; [apply H; left; reflexivity|]. rewrite Hd. cbn.
    destruct IHl as [ds E]; [intros; apply H; right; assumption|]. rewrite E. cbn. eauto. }
  rewrite E. cbn. destruct IH as [l El]; [intros; eapply H; [right|]; eassumption|]. rewrite El. cbn. eauto.
Qed.

Lemma save_sim m0 ds m s e : sim m0 ds m s ->
  exists o, save_destination e m = Ok o /\
    sim m0 ds (so_model o) (mk_flags (f_now s) (if save_succeeds e then f_now s else f_saved s) (f_sel s)) /\
    dm_applied (so_model o) = dm_applied m.
Proof.
  intros [V R ND HH L1 L2 SL]. unfold save_destination, has_unsaved. rewrite V. cbn [bind].
  assert (sim m0 ds m (mk_flags (f_now s) (f_saved s) (f_sel s))) as Hsame by (destruct s; constructor; assumption).
  destruct (existsb d_unsaved (expect 0 ds (f_now s) (f_saved s))) eqn:Eu; cbn [negb].
  2: { eexists; split; [reflexivity|]. cbn. split; [|reflexivity]. apply unsaved_expect in Eu; try assumption.
       rewrite <- Eu in Hsame. destruct (save_succeeds e); rewrite <- ?Eu; exact Hsame. }
  unfold save_succeeds.
  destruct (se_open e); cbn [negb andb]; [|eexists; split; [reflexivity|cbn; auto]].
  destruct (saved_lines_ok _ _ HH) as [lines El]. rewrite El. cbn [bind].
  destruct (se_write e); cbn [negb andb]; [|eexists; split; [reflexivity|cbn; auto]].
  destruct (se_close e); cbn [negb andb]; [|eexists; split; [reflexivity|cbn; auto]].
  assert (exists o, (if se_copy e then do st <- clear_unsaved (dm_diffs m) (dm_store m); Ok (mk_save_out true (Some (concat_str lines)) false (with_store m st)) else Ok (mk_save_out true None true m)) = Ok o /\
     sim m0 ds (so_model o) (mk_flags (f_now s) (if se_copy e then f_now s else f_saved s) (f_sel s)) /\
     dm_applied (so_model o) = dm_applied m) as Hcopy.
  { destruct (se_copy e); [|eexists; split; [reflexivity|cbn; auto]].
    destruct (clear_ok _ _ _ V ND) as (st' & -> & F & V'). cbn [bind].
    eexists; split; [reflexivity|]. split; [|reflexivity].
    constructor; cbn [so_model dm_store dm_diffs dm_hunks dm_sel with_store with_contents f_now f_saved f_sel]; try assumption.
    - rewrite V'. f_equal. apply map_unsaved_expect; assumption.
    - apply same_rest_store; assumption.
    - intros h Hh j Hj. destruct F as [F1 _]. rewrite F1. eapply HH; eauto. }
  destruct (se_dirs e), (se_stat e), (se_mkdir e); cbn [negb andb orb]; try exact Hcopy.
  eexists; split; [reflexivity|cbn; auto].
Qed.

Lemma op_sim m0 ds m s o s' :
  increasing (map d_dst ds) -> (forall d, In d ds -> d_connected d = true) ->
  sim m0 ds m s -> abs_op s o = Some s' ->
  exists m', run_op m o = Ok m' /\ sim m0 ds m' s' /\
    (no_direct o = true -> dm_applied m = count_true (f_now s) -> dm_applied m' = count_true (f_now s')).
Proof.
  intros Hinc Hconn Hsim Ho.
  destruct o as [k|b|k b|b|e]; cbn [abs_op run_op] in *.
  - (* Select *)
    destruct (Nat.ltb_spec k (length (f_now s))) as [Hk|]; [|discriminate]. injection Ho as <-.
    destruct Hsim as [V R ND HH L1 L2 SL].
    destruct (deref_all_ok _ _ _ V) as [Hlen _]. rewrite expect_length in Hlen by assumption.
    destruct (nth_error_Some_lt (dm_diffs m) k) as [i Hi]; [lia|].
    unfold diff_at. assert (Z.ltb (Z.of_nat k) 0 = false) as -> by lia. rewrite Nat2Z.id, Hi. cbn [bind].
    unfold set_selected_difference.
    destruct (sel_eqb (Some i) (dm_sel m)) eqn:Es.
    + cbn [fst]. exists m. split; [reflexivity|]. split; [|auto]. constructor; cbn; try assumption.
      split; [lia|]. destruct (dm_sel m) as [j|]; cbn in Es; [|discriminate]. apply Nat.eqb_eq in Es. congruence.
    + rewrite (find_id_nodup _ _ _ ND Hi). cbn [fst]. eexists. split; [reflexivity|]. split; [|auto].
      constructor; cbn; try assumption. split; [lia|]. symmetry; exact Hi.
  - (* ApplySelected *)
    destruct (f_sel s) as [k|] eqn:Ek; [|discriminate]. injection Ho as <-.
    pose proof Hsim as [V R ND HH L1 L2 SL]. rewrite Ek in SL. destruct SL as [Hk Hsel].
    destruct (apply_id_sim m0 ds m s k b Hinc Hconn Hsim Hk) as (i & m' & Hi & Ea & Hs' & Hcnt).
    unfold apply_difference. rewrite Hsel, Hi.
    destruct (deref_all_ok _ _ _ V) as [_ Hnth].
    destruct (Hnth k i Hi) as (dd & Hst & Hv). unfold deref. rewrite Hst. cbn [bind].
    destruct (nth_error_Some_lt ds k Hk) as [d Hd].
    destruct (nth_error_Some_lt (f_now s) k) as [f Hf]; [lia|].
    destruct (nth_error_Some_lt (f_saved s) k) as [sv Hsv]; [lia|].
    rewrite (expect_nth _ _ _ _ _ _ _ _ Hd Hf Hsv) in Hv. injection Hv as <-. cbn [d_applied restate] in *.
    destruct (Bool.eqb f b) eqn:E.
    + apply Bool.eqb_prop in E. subst f. exists m. split; [reflexivity|].
      rewrite (update_same_value _ _ _ Hf). split; [|auto]. rewrite <- Ek. destruct s; constructor; try assumption.
      cbn in *. rewrite Ek. auto.
    + apply Bool.eqb_false_iff in E.
      assert (forall z, apply_id (with_applied m z) i b = do m' <- apply_id m i b; Ok (with_applied m' z)) as Hcomm.
      { intros z. unfold apply_id. change (dm_store (with_applied m z)) with (dm_store m).
        unfold deref. rewrite Hst. cbn [bind]. destruct (Bool.eqb _ b); [reflexivity|]. cbn zeta.
        destruct (d_connected _); [|reflexivity]. unfold slot_difference_applied. cbn.
        destruct (shift_tracking _ _ _ _); reflexivity. }
      rewrite Hcomm, Ea. cbn [bind]. eexists. split; [reflexivity|]. split.
      * destruct Hs' as [V' R' ND' HH' L1' L2' SL']. rewrite Ek in SL'. constructor; cbn; try assumption.
      * intros _ Hc. cbn. rewrite Hc. clear - Hf E.
        assert (forall fs k f, nth_error fs k = Some f -> f <> b -> count_true (update fs k b) = (if b then count_true fs + 1 else count_true fs - 1)) as Hct.
        { induction fs as [|g fs IH]; intros [|k'] f' H1 H2; cbn in *; try discriminate.
          - injection H1 as ->. destruct f', b; try congruence; lia.
          - rewrite (IH _ _ H1 H2). destruct b; lia. }
        rewrite (Hct _ _ _ Hf E). destruct b; reflexivity.
  - (* ApplyDirect *)
    destruct (Nat.ltb_spec k (length (f_now s))) as [Hk|]; [|discriminate]. injection Ho as <-.
    assert (k < length ds)%nat as Hk' by (destruct Hsim; lia).
    destruct (apply_id_sim m0 ds m s k b Hinc Hconn Hsim Hk') as (i & m' & Hi & Ea & Hs' & Hcnt).
    unfold diff_at. assert (Z.ltb (Z.of_nat k) 0 = false) as -> by lia. rewrite Nat2Z.id, Hi. cbn [bind].
    exists m'. split; [exact Ea|]. split; [exact Hs'|]. discriminate.
  - (* ApplyAll *)
    injection Ho as <-. destruct Hsim as [V R ND HH L1 L2 SL]. unfold apply_all.
    change (dm_diffs (with_applied m _)) with (dm_diffs m). change (dm_store (with_applied m _)) with (dm_store m).
    destruct (apply_all_ok b _ _ _ 0 V ND) as (st' & -> & F & V'). cbn [bind]. eexists. split; [reflexivity|].
    destruct (deref_all_ok _ _ _ V) as [Hlen _]. rewrite expect_length in Hlen by assumption.
    split.
    + constructor; cbn [dm_store dm_diffs dm_hunks dm_sel with_store with_contents with_applied f_now f_saved f_sel]; try assumption.
      * rewrite V'. f_equal. rewrite apply_all_expect by assumption. reflexivity.
      * pose proof (same_rest_store m0 m st' R F) as HR. exact HR.
      * intros h Hh j Hj. destruct F as [F1 _]. rewrite F1. eapply HH; eauto.
      * rewrite map_length. exact L1.
    + intros _ _. cbn. rewrite <- Hlen, <- L1. clear. induction (f_now s) as [|f fs IH]; cbn [map count_true length]; [destruct b; reflexivity|].
      destruct b; lia.
  - (* Save *)
    injection Ho as <-. destruct (save_sim m0 ds m s e Hsim) as (o & -> & Hs' & Hc). cbn [bind].
    eexists. split; [reflexivity|]. split; [exact Hs'|]. intros _ H. rewrite Hc. exact H.
Qed.

Lemma run_sim m0 ds ops : forall m s s',
  increasing (map d_dst ds) -> (forall d, In d ds -> d_connected d = true) ->
  sim m0 ds m s -> abs_run s ops = Some s' ->
  exists m', run m ops = Ok m' /\ sim m0 ds m' s' /\
    (forallb no_direct ops = true -> dm_applied m = count_true (f_now s) -> dm_applied m' = count_true (f_now s')).
Proof.
  induction ops as [|o ops IH]; intros m s s' Hinc Hconn Hsim H; cbn in H |- *.
  - injection H as <-. exists m. auto.
  - destruct (abs_op s o) as [s1|] eqn:Eo; [|discriminate].
    destruct (op_sim m0 ds m s o s1 Hinc Hconn Hsim Eo) as (m1 & -> & Hsim1 & Hc1). cbn [bind].
    destruct (IH m1 s1 s' Hinc Hconn Hsim1 H) as (m2 & -> & Hsim2 & Hc2).
    exists m2. split; [reflexivity|]. split; [exact Hsim2|].
    intros Hd Hc. apply andb_true_iff in Hd as [Hd1 Hd2]. auto.
Qed.

Lemma fresh_sim m ds : fresh m ds -> sim m ds m (abs_init (length ds)).
Proof.
  intros [HL HN HH HS HO HC HSel]. constructor; cbn; try assumption.
  - unfold listed in HL. rewrite HL. f_equal.
    clear - HS. induction ds as [|d ds IH]; cbn; [reflexivity|].
    rewrite <- IH by (intros; apply HS; right; assumption). f_equal.
    destruct (HS d (or_introl eq_refl)) as (H1 & H2 & H3 & H4). destruct d; cbn in *; subst. unfold restate; cbn. f_equal. lia.
  - unfold same_rest. repeat split; reflexivity || auto.
  - apply repeat_length.
  - apply repeat_length.
Qed.
Lemma count_repeat n : count_true (repeat false n) = 0.
Proof. induction n; cbn; auto. Qed.

(** Main result. *)
Lemma history_ok m ds ops s : fresh m ds -> abs_run (abs_init (length ds)) ops = Some s ->
  exists m' ds', run m ops = Ok m' /\ listed m' = Ok ds' /\ same_rest m m' /\
    length ds' = length ds /\
    (forall k d f sv, nth_error ds k = Some d -> nth_error (f_now s) k = Some f -> nth_error (f_saved s) k = Some sv ->
       nth_error ds' k = Some (restate d (d_src d + gained ds (f_now s) k) f (xorb f sv))) /\
    has_unsaved m' = Ok (existsb d_unsaved ds') /\
    length (f_now s) = length ds /\ length (f_saved s) = length ds /\
    (forallb no_direct ops = true -> dm_applied m' = count_true (f_now s)).
Proof.
  intros Hf Hr. pose proof (fresh_sim m ds Hf) as Hs. destruct Hf as [HL HN HH HS HO HC HSel].
  assert (forall d, In d ds -> d_connected d = true) as Hconn by (intros d Hd; apply HS in Hd; tauto).
  destruct (run_sim m ds ops m _ s HO Hconn Hs Hr) as (m' & E & [V R ND HH' L1 L2 SL] & Hc).
  exists m'. eexists. split; [exact E|]. split; [exact V|]. split; [exact R|].
  split; [apply expect_length; assumption|]. split.
  { intros k d f sv H1 H2 H3. rewrite (expect_nth _ _ _ _ _ _ _ _ H1 H2 H3). f_equal. f_equal. lia. }
  split; [unfold has_unsaved; rewrite V; reflexivity|].
  split; [exact L1|]. split; [exact L2|]. intros Hd. apply Hc; [exact Hd|]. cbn. rewrite count_repeat. exact HC.
Qed.
