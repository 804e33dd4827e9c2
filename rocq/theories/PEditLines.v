From Coq Require Import ZifyBool ZifyNat ZifyN String.
From Verif Require Import Base QtStr Lev Diff Save LinesChanged SpecEdit SpecInline SpecHistory SpecPatch PLev PropsLev PHistory PMarkLoop PPatch.
Local Open Scope Z_scope.

Lemma shift_after_ok delta : forall l st ds, deref_all st l = Ok ds -> NoDup l ->
  exists st', shift_after l delta st = Ok st' /\ frame l st st' /\ deref_all st' l = Ok (map (moved delta) ds).
Proof.
  induction l as [|i l IH]; intros st ds H Hn.
  - cbn in H. injection H as <-. exists st. split; [reflexivity|]. split; [apply frame_refl|reflexivity].
  - destruct (deref_all_cons _ _ _ _ H) as (d & ds' & -> & Hd & H').
    inversion Hn as [|? ? Hni Hn']; subst. cbn [shift_after]. unfold deref. rewrite Hd. cbn [bind].
    destruct (IH (update st i (set_track (d_track d + delta) d)) ds') as (st2 & E2 & F2 & D2); [|exact Hn'|].
    { rewrite <- H'. apply deref_all_ext. intros j Hj. apply nth_update_other. intros ->; contradiction. }
    exists st2. split; [exact E2|]. split.
    + eapply frame_trans; [apply frame_update; left; reflexivity|]. eapply frame_weaken; [|exact F2]. intros; right; assumption.
    + cbn [map deref_all]. unfold deref. destruct F2 as [_ F2]. rewrite (F2 i Hni).
      rewrite nth_update_same by (eapply nth_some_lt; exact Hd). cbn [bind]. rewrite D2. reflexivity.
Qed.

Lemma deref_all_app st l1 l2 : deref_all st (l1 ++ l2) = do a <- deref_all st l1; do b <- deref_all st l2; Ok (a ++ b).
Proof.
  induction l1 as [|i l1 IH]; cbn.
  - destruct (deref_all st l2); reflexivity.
  - destruct (deref st i); cbn; [|reflexivity|reflexivity]. rewrite IH.
    destruct (deref_all st l1); cbn; [|reflexivity|reflexivity]. destruct (deref_all st l2); reflexivity.
Qed.
Lemma deref_all_app_ok st l1 l2 ds : deref_all st (l1 ++ l2) = Ok ds ->
  exists a b, ds = a ++ b /\ deref_all st l1 = Ok a /\ deref_all st l2 = Ok b.
Proof.
  rewrite deref_all_app. destruct (deref_all st l1) as [a| |]; cbn; try discriminate.
  destruct (deref_all st l2) as [b| |]; cbn; try discriminate. intros H. injection H as <-. eauto.
Qed.
Lemma deref_all_lt st l ds : deref_all st l = Ok ds -> forall i, In i l -> (i < length st)%nat.
Proof.
  intros H i Hi. apply In_nth_error in Hi as [k Hk]. destruct (deref_all_ok _ _ _ H) as [_ H2].
  destruct (H2 k i Hk) as (d & Hd & _). eapply nth_some_lt; exact Hd.
Qed.
Lemma deref_seq st news : deref_all (st ++ news) (seq (length st) (length news)) = Ok news.
Proof.
  apply deref_all_intro; [rewrite seq_length; reflexivity|].
  intros k i Hk. assert (k < length news)%nat as Hl by (apply nth_some_lt in Hk; rewrite seq_length in Hk; exact Hk).
  assert (i = length st + k)%nat as ->.
  { apply nth_error_nth with (d := O) in Hk. rewrite seq_nth in Hk by exact Hl. lia. }
  rewrite nth_error_app2 by lia. replace (length st + k - length st)%nat with k by lia.
  destruct (nth_error_Some_lt news k Hl) as [d Hd]. eauto.
Qed.

Lemma until_app {A} (f : A -> bool) l : let '(a, b) := until f l in l = a ++ b.
Proof. induction l as [|x l IH]; cbn; [reflexivity|]. destruct (f x); [reflexivity|]. destruct (until f l). cbn. congruence. Qed.

(** How a call changes the list of differences. *)
Record reported (m m' : dmodel) (ins rem : list nat) (delta : Z)
  (i1 i3 : list nat) (pre mid post news : list difference) : Prop := {
  rp_old_ids : dm_diffs m = i1 ++ rem ++ i3;
  rp_new_ids : dm_diffs m' = i1 ++ ins ++ i3;
  rp_pre : deref_all (dm_store m) i1 = Ok pre;
  rp_mid : deref_all (dm_store m) rem = Ok mid;
  rp_post : deref_all (dm_store m) i3 = Ok post;
  rp_pre' : deref_all (dm_store m') i1 = Ok pre;
  rp_mid' : deref_all (dm_store m') rem = Ok mid;
  rp_ins' : deref_all (dm_store m') ins = Ok news;
  rp_post' : deref_all (dm_store m') i3 = Ok (map (moved delta) post);
  rp_fresh : forall i, In i ins -> (length (dm_store m) <= i)%nat;
  rp_nodup : NoDup (dm_diffs m') }.

Definition same_frame (m m' : dmodel) : Prop :=
  dm_source m' = dm_source m /\ dm_destination m' = dm_destination m /\
  dm_hunks m' = dm_hunks m /\ dm_applied m' = dm_applied m /\ dm_index m' = dm_index m /\
  dm_sel m' = dm_sel m /\ dm_blended m' = dm_blended m /\
  forall i, (i < length (dm_store m))%nat -> ~ In i (dm_diffs m) -> nth_error (dm_store m') i = nth_error (dm_store m) i.

Lemma nodup_app_inv {A} (l1 l2 : list A) : NoDup (l1 ++ l2) -> NoDup l1 /\ NoDup l2 /\ forall x, In x l1 -> ~ In x l2.
Proof.
  induction l1 as [|x l1 IH]; cbn; intros H; [split; [constructor|]; split; auto|].
  inversion H; subst. destruct (IH H3) as (A1 & A2 & A3). split; [constructor; [rewrite in_app_iff in H2; tauto|exact A1]|].
  split; [exact A2|]. intros y [<-|Hy]; [rewrite in_app_iff in H2; tauto|auto].
Qed.
Lemma nodup_app {A} (l1 l2 : list A) : NoDup l1 -> NoDup l2 -> (forall x, In x l1 -> ~ In x l2) -> NoDup (l1 ++ l2).
Proof.
  induction l1 as [|x l1 IH]; cbn; intros H1 H2 H; [exact H2|]. inversion H1; subst. constructor.
  - rewrite in_app_iff. intros [Hx|Hx]; [contradiction|]. apply (H x (or_introl eq_refl) Hx).
  - apply IH; auto.
Qed.

(** The final update of the model. *)
Lemma commit_ok m i1 rem i3 pre mid post news delta :
  dm_diffs m = i1 ++ rem ++ i3 -> NoDup (dm_diffs m) ->
  deref_all (dm_store m) i1 = Ok pre -> deref_all (dm_store m) rem = Ok mid -> deref_all (dm_store m) i3 = Ok post ->
  let ins := seq (length (dm_store m)) (length news) in
  exists st, shift_after i3 delta (dm_store m ++ news) = Ok st /\
    reported m (with_contents m (dm_hunks m) (i1 ++ ins ++ i3) st) ins rem delta i1 i3 pre mid post news /\
    same_frame m (with_contents m (dm_hunks m) (i1 ++ ins ++ i3) st).
Proof.
  intros E Hn P1 P2 P3 ins.
  assert (forall l ds, deref_all (dm_store m) l = Ok ds -> deref_all (dm_store m ++ news) l = Ok ds) as Hext.
  { intros l ds H. rewrite <- H. apply deref_all_ext. intros i Hi. apply nth_error_app1. eapply deref_all_lt; eauto. }
  rewrite E in Hn. destruct (nodup_app_inv _ _ Hn) as (N1 & N23 & X1). destruct (nodup_app_inv _ _ N23) as (N2 & N3 & X2).
  destruct (shift_after_ok delta i3 (dm_store m ++ news) post) as (st & Es & Fs & Ds); [apply Hext; exact P3|exact N3|].
  assert (forall l ds, (forall i, In i l -> ~ In i i3) -> deref_all (dm_store m ++ news) l = Ok ds -> deref_all st l = Ok ds) as Hkeep.
  { intros l ds Hl H. rewrite <- H. apply deref_all_ext. intros i Hi. destruct Fs as [_ Fs]. apply Fs. auto. }
  assert (forall i, In i ins -> (length (dm_store m) <= i)%nat) as Hfresh by (intros i Hi; apply in_seq in Hi; lia).
  pose proof (deref_all_lt _ _ _ P3) as L3. pose proof (deref_all_lt _ _ _ P1) as L1.
  assert (NoDup (i1 ++ ins ++ i3)) as HN.
  { apply nodup_app; [exact N1| |].
    - apply nodup_app; [apply seq_NoDup|exact N3|]. intros x Hx Hx'. specialize (Hfresh x Hx). specialize (L3 x Hx'). lia.
    - intros x Hx. rewrite in_app_iff. intros [Hx'|Hx'].
      + specialize (Hfresh x Hx'). specialize (L1 x Hx). lia.
      + apply (X1 x Hx). rewrite in_app_iff. auto. }
  exists st. split; [exact Es|]. split.
  - constructor; try assumption; try reflexivity.
    + apply Hkeep; [|apply Hext; exact P1]. intros i Hi Hi'. apply (X1 i Hi). rewrite in_app_iff. auto.
    + apply Hkeep; [|apply Hext; exact P2]. exact X2.
    + apply Hkeep; [|apply deref_seq]. intros i Hi Hi'. specialize (Hfresh i Hi). specialize (L3 i Hi'). lia.
  - unfold same_frame; cbn. repeat (split; [reflexivity|]). intros i Hi Hni. destruct Fs as [_ Fs]. rewrite Fs.
    + apply nth_error_app1. exact Hi.
    + intros Hi'. apply Hni. rewrite E, !in_app_iff. auto.
Qed.

Lemma skipn_twice {A} a b (l : list A) : skipn b (skipn a l) = skipn (a + b) l.
Proof. revert l; induction a as [|a IH]; intros l; [reflexivity|]. destruct l as [|x l]; [cbn; apply skipn_nil|]. cbn. apply IH. Qed.
Lemma split_ids {A} (l : list nat) (ds pre mid post : list A) :
  length ds = length l -> ds = pre ++ mid ++ post ->
  l = firstn (length pre) l ++ firstn (length mid) (skipn (length pre) l) ++ skipn (length pre + length mid) l /\
  length (firstn (length pre) l) = length pre /\ length (firstn (length mid) (skipn (length pre) l)) = length mid.
Proof.
  intros Hl ->. rewrite !app_length in Hl. split.
  - rewrite <- (firstn_skipn (length pre) l) at 1. f_equal.
    rewrite <- (firstn_skipn (length mid) (skipn (length pre) l)) at 1. f_equal.
    apply skipn_twice.
  - rewrite !firstn_length, skipn_length. lia.
Qed.
Lemma app_eq_len {A} (a b c d : list A) : a ++ b = c ++ d -> length a = length c -> a = c /\ b = d.
Proof.
  revert c; induction a as [|x a IH]; intros [|y c] E H; cbn in *; try discriminate; auto.
  injection E as -> E. destruct (IH c E) as [-> ->]; auto.
Qed.
Lemma split_deref st l ds pre mid post i1 i2 i3 :
  deref_all st l = Ok ds -> ds = pre ++ mid ++ post -> l = i1 ++ i2 ++ i3 -> length i1 = length pre -> length i2 = length mid ->
  deref_all st i1 = Ok pre /\ deref_all st i2 = Ok mid /\ deref_all st i3 = Ok post.
Proof.
  intros H -> -> L1 L2. apply deref_all_app_ok in H as (a & b & E & H1 & H2). apply deref_all_app_ok in H2 as (c & d & -> & H2 & H3).
  pose proof (proj1 (deref_all_ok _ _ _ H1)) as K1. pose proof (proj1 (deref_all_ok _ _ _ H2)) as K2.
  apply app_eq_len in E as [-> E]; [|congruence]. apply app_eq_len in E as [-> ->]; [|congruence]. auto.
Qed.

Lemma with_contents_id m : with_contents m (dm_hunks m) (dm_diffs m) (dm_store m) = m.
Proof. destruct m; reflexivity. Qed.

(** C33 *)
Lemma report_ok qhash m old new edit m' ins rem ds :
  lines_changed qhash m old new edit = Ok (m', ins, rem) -> listed m = Ok ds -> NoDup (dm_diffs m) ->
  same_frame m m' /\
  exists i1 i3 pre mid post news, reported m m' ins rem (Z.of_nat (length new) - Z.of_nat (length old)) i1 i3 pre mid post news.
Proof.
  intros H HL Hn. unfold lines_changed in H.
  assert (old = [] /\ new = [] \/ ~ (old = [] /\ new = [])) as [[-> ->]|Hne].
  { destruct old, new; auto; right; intros [? ?]; congruence. }
  - injection H as <- <- <-. split; [unfold same_frame; auto 12|].
    exists (dm_diffs m), [], ds, [], [], []. unfold listed in HL. constructor; cbn; rewrite ?app_nil_r; auto. intros i [].
  - set (body := bind (deref_all (dm_store m) (dm_diffs m)) _) in H.
    assert (match old with [] => match new with [] => Ok (m, [], []) | _ :: _ => body end | _ :: _ => body end = body) as E.
    { destruct old, new; try reflexivity. exfalso; auto. }
    rewrite E in H. clear E. unfold body in H. clear body. unfold listed in HL. rewrite HL in H. cbn [bind] in H.
    pose proof (until_app (starts_range edit) ds) as U1. destruct (until (starts_range edit) ds) as [pre rest].
    pose proof (until_app (stops_range (edit + Z.of_nat (length old))) rest) as U2.
    destruct (until (stops_range (edit + Z.of_nat (length old))) rest) as [mid post].
    destruct (region_numbers edit ds rest) as [sl dl].
    destruct (region_lines _ _ _ _ _) as [[src dst]| |]; cbn [bind] in H; try discriminate.
    destruct (create_table _ _) as [r| |]; cbn [bind] in H; try discriminate.
    destruct (create_markers _ _ _ _) as [[m1 m2]| |]; cbn [bind] in H; try discriminate.
    destruct (marker_loop _ _ _ _ _ _ _ _ _ _) as [news| |]; cbn [bind] in H; try discriminate.
    subst rest. rename U1 into E.
    pose proof (proj1 (deref_all_ok _ _ _ HL)) as Hlen.
    destruct (split_ids (dm_diffs m) ds pre mid post Hlen E) as (S1 & S2 & S3).
    destruct (split_deref _ _ _ _ _ _ _ _ _ HL E S1 S2 S3) as (P1 & P2 & P3).
    destruct (commit_ok m _ _ _ _ _ _ news (Z.of_nat (length new) - Z.of_nat (length old)) S1 Hn P1 P2 P3) as (st & Es & Hrep & Hsame).
    rewrite Es in H. cbn [bind] in H. injection H as <- <- <-. split; [exact Hsame|]. eauto 10.
Qed.

(** * The patch *)
Lemma total_filter {A} (f : A -> Z) (p q : A -> bool) l1 l2 l3 :
  (forall x, 0 <= f x) -> Forall (fun x => p x = true) (filter q l2) ->
  total f (filter q l2) <= total f (filter p (l1 ++ l2 ++ l3)).
Proof.
  intros Hf H. rewrite !filter_app.
  assert (forall a b, total f (a ++ b) = total f a + total f b) as Happ by (induction a as [|x a IH]; intros b; cbn; [lia|rewrite IH; lia]).
  rewrite !Happ. pose proof (total_pos f (filter p l1) Hf). pose proof (total_pos f (filter p l3) Hf).
  cut (total f (filter q l2) <= total f (filter p l2)); [lia|]. clear - Hf H.
  induction l2 as [|x l IH]; cbn [filter] in *; [cbn; lia|]. destruct (q x).
  - inversion H; subst. rewrite H2. cbn [total]. specialize (IH H3). lia.
  - specialize (IH H). destruct (p x); cbn [total]; [specialize (Hf x)|]; lia.
Qed.

Lemma edit_ok qhash m ds S D1 old D2 new :
  listed m = Ok ds -> NoDup (dm_diffs m) ->
  describes 1 1 S (D1 ++ old ++ D2) ds ->
  let edit := 1 + count D1 in
  harmless edit ds -> region_fits ds old new edit -> Forall short S -> Forall short (D1 ++ new ++ D2) ->
  exists m' ins rem i1 i3 pre mid post news A A' R R' B B' delta,
    lines_changed qhash m old new edit = Ok (m', ins, rem) /\ same_frame m m' /\
    delta = count new - count old /\
    reported m m' ins rem delta i1 i3 pre mid post news /\
    S = A ++ R ++ B /\ D1 ++ new ++ D2 = A' ++ R' ++ B' /\
    describes 1 1 A A' pre /\
    describes (1 + count A) (1 + count A') R R' news /\
    describes (1 + count A + count R) (1 + count A' + count R') B B' (map (moved delta) post) /\
    Forall new_number news /\
    is_distance false R R' (Z.to_nat (total size_of news)).
Proof.
  intros HL Hn HD edit Hh Hfit HS1 HS2.
  assert (old = [] /\ new = [] \/ ~ (old = [] /\ new = [])) as [[-> ->]|Hne].
  { destruct old, new; auto; right; intros [? ?]; congruence. }
  - exists m, [], [], (dm_diffs m), [], ds, [], [], [], S, (D1 ++ D2), [], [], [], [], 0.
    split; [reflexivity|]. split; [unfold same_frame; auto 12|]. split; [reflexivity|]. unfold listed in HL.
    split; [constructor; cbn; rewrite ?app_nil_r; auto; intros i []|].
    cbn [app map] in *. rewrite !app_nil_r in *. split; [reflexivity|]. split; [reflexivity|]. split; [exact HD|].
    split; [constructor|]. split; [constructor|]. split; [constructor|]. cbn.
    split; [constructor|]. intros; lia.
  - pose proof (region_ok 1 S D1 old D2 new ds edit HD eq_refl Hh) as HR. cbv zeta in HR.
    unfold lines_changed.
    set (body := bind (deref_all (dm_store m) (dm_diffs m)) _).
    assert (match old with [] => match new with [] => Ok (m, [], []) | _ :: _ => body end | _ :: _ => body end = body) as ->.
    { destruct old, new; try reflexivity. exfalso; auto. }
    unfold body. clear body. unfold listed in HL. rewrite HL. cbn [bind]. fold (count old) (count new).
    destruct (until (starts_range edit) ds) as [pre rest].
    destruct (until (stops_range (edit + count old)) rest) as [mid post].
    destruct HR as (E & Ht & A & A' & R & R' & B & B' & E1 & E2 & Dpre & Dpost & En & El & Z1 & Z2 & Hnil).
    rewrite En, El. cbn [bind].
    assert ((area R R' <= limit)%N) as Hlim.
    { unfold region_fits in Hfit. cbv zeta in Hfit.
      pose proof (total_filter S_of (touched edit (edit + count old)) d_applied pre mid post ltac:(intros; apply count_pos) Ht) as T1.
      pose proof (total_filter D_of (touched edit (edit + count old)) d_applied pre mid post ltac:(intros; apply count_pos) Ht) as T2.
      rewrite <- E in T1, T2. fold S_of in Hfit. fold D_of in Hfit. unfold area.
      set (tS := total S_of (filter (touched edit (edit + count old)) ds)) in *.
      set (tD := total D_of (filter (touched edit (edit + count old)) ds)) in *.
      pose proof (count_pos R). pose proof (count_pos R').
      assert ((count R + 1) * (count R' + 1) <= Z.of_N limit) as Hz.
      { eapply Z.le_trans; [|exact Hfit]. apply Z.mul_le_mono_nonneg; lia. }
      unfold count in *. lia. }
    destruct (C10_line_markers_minimal_script qhash new_table R R' Hlim) as (d & t' & m1 & m2 & C1 & C2 & C3 & C4 & C5 & C6 & C7).
    rewrite C1. cbn [bind snd]. rewrite C2. cbn [bind].
    assert (Forall short R /\ Forall short R') as [HR1 HR2].
    { rewrite E1 in HS1. rewrite E2 in HS2. apply Forall_app in HS1 as [_ HS1]. apply Forall_app in HS2 as [_ HS2].
      apply Forall_app in HS1 as [HS1 _]. apply Forall_app in HS2 as [HS2 _]. auto. }
    destruct (loop_ok (1 + count A) (1 + count A') (Z.of_nat (length R + length R' + 1)) (length m1 + length m2) m1 m2 [] R [] R') as (news & L1 & L2 & L3 & L4 & L5);
      [cbn [app]; unfold count; lia|exact C4|exact C5|exact C6|lia|exact HR1|exact HR2|].
    cbn [app] in L1. rewrite !count_nil in L1. rewrite L1. cbn [bind].
    pose proof (proj1 (deref_all_ok _ _ _ HL)) as Hlen.
    destruct (split_ids (dm_diffs m) ds pre mid post Hlen E) as (S1 & S2 & S3).
    destruct (split_deref _ _ _ _ _ _ _ _ _ HL E S1 S2 S3) as (P1 & P2 & P3).
    destruct (commit_ok m _ _ _ _ _ _ news (count new - count old) S1 Hn P1 P2 P3) as (st & Es & Hrep & Hsame).
    rewrite Es. cbn [bind].
    do 16 eexists. split; [reflexivity|]. split; [exact Hsame|]. split; [reflexivity|]. split; [exact Hrep|].
    split; [exact E1|]. split; [exact E2|]. split; [exact Dpre|].
    split; [eapply desc_cast; [exact L2| |]; rewrite count_nil; lia|].
    split.
    { apply (desc_shift (count new - count old)) in Dpost. eapply desc_cast; [exact Dpost| |]; lia. }
    split; [exact L3|].
    cbn [length] in L5. fold (changed_count m1 R) in L5. fold (changed_count m2 R') in L5. rewrite L5, Nat2Z.id, C7. exact C3.
Qed.
