(** C35: edits of any size. *)
From Coq Require Import ZifyBool ZifyNat ZifyN String.
From Verif Require Import Base QtStr Lev Diff Save LinesChanged SpecEdit SpecInline SpecHistory SpecPatch PLev PropsLev PHistory PMarkLoop PPatch PEditLines PropsEdit.
Local Open Scope Z_scope.

Lemma same_start {A} (a b x y : list A) : a ++ x = b ++ y -> count a = count b -> a = b /\ x = y.
Proof. intros E L. apply app_eq_len; [exact E|]. unfold count in L. lia. Qed.
(** A patch that says nothing about a region is right only if the region is the same on both sides. *)
Lemma gap_exactly s t A A' pre : describes s t A A' pre -> forall R R' B B' post,
  describes (s + count A + count R) (t + count A' + count R') B B' post ->
  describes s t (A ++ R ++ B) (A' ++ R' ++ B') (pre ++ post) -> R = R'.
Proof.
  intros H. induction H as [s t same|s t same S D d ds E1 E2 H IH]; intros R R' B B' post HB HW.
  - cbn [app] in HW. inversion HB as [s0 t0 z Q1 Q2 Q3 Q4 Q5|s0 t0 z S0 D0 d ds F1 F2 F3 Q1 Q2 Q3 Q4 Q5].
    + subst post. assert (EQ : same ++ R ++ B = same ++ R' ++ B') by (remember (same ++ R ++ B) as W1; remember (same ++ R' ++ B') as W2; now inversion HW).
      apply app_inv_head in EQ. replace B' with B in EQ by congruence. now apply app_inv_tail in EQ.
    + subst post B B'. remember (same ++ R ++ z ++ lines_of (d_slines d) ++ S0) as W1 eqn:EW1. remember (same ++ R' ++ z ++ shown d ++ D0) as W2 eqn:EW2.
      inversion HW as [|s1 t1 y S1 D1 d1 ds1 G1 G2 G3 P1 P2 P3 P4 P5]. subst d1 ds1.
      assert (L1 : count (same ++ R ++ z) = count y) by (rewrite !count_app; lia). assert (L2 : count (same ++ R' ++ z) = count y) by (rewrite !count_app; lia).
      rewrite EW1 in P3. rewrite EW2 in P4. rewrite !app_assoc in P3, P4. rewrite <- !app_assoc with (l := same) in P3, P4.
      assert (X1 : y = same ++ R ++ z). { rewrite <- !app_assoc in P3. rewrite (app_assoc R), (app_assoc same) in P3. apply same_start in P3 as [X _]; [exact X|lia]. }
      assert (X2 : y = same ++ R' ++ z). { rewrite <- !app_assoc in P4. rewrite (app_assoc R'), (app_assoc same) in P4. apply same_start in P4 as [X _]; [exact X|lia]. }
      rewrite X1 in X2. apply app_inv_head in X2. now apply app_inv_tail in X2.
  - cbn [app] in HW. remember ((same ++ lines_of (d_slines d) ++ S) ++ R ++ B) as W1 eqn:EW1. remember ((same ++ shown d ++ D) ++ R' ++ B') as W2 eqn:EW2.
    inversion HW as [|s1 t1 y S1 D1 d1 ds1 G1 G2 G3 P1 P2 P3 P4 P5]. subst d1 ds1.
    rewrite EW1 in P3. rewrite EW2 in P4. rewrite <- !app_assoc in P3, P4. apply same_start in P3 as [X P3]; [|lia]. subst y. apply app_inv_head in P3, P4. apply app_inv_head in P4. subst S1 D1.
    apply (IH R R' B B' post).
    + eapply desc_cast; [exact HB| |]; rewrite !count_app; unfold lines_of, count; rewrite ?map_length; lia.
    + exact G3.
Qed.
Lemma gap_right s t A A' pre R B B' post : describes s t A A' pre ->
  describes (s + count A + count R) (t + count A' + count R) B B' post -> describes s t (A ++ R ++ B) (A' ++ R ++ B') (pre ++ post).
Proof. intros H HB. apply desc_app; [exact H|]. now apply desc_prefix. Qed.
(** The size of the region, as in [region_fits] (SpecPatch.v), but only required to be a 32-bit number. *)
Definition region_counts (ds : list difference) (old new : list str) (edit : Z) : Prop :=
  let t := filter (touched edit (edit + count old)) ds in
  (count old + total (fun d => count (d_slines d)) t + 1) * (count new + total (fun d => count (d_dlines d)) t + 1) < 4294967296.
Lemma oversize_table qhash R R' : (limit < area R R' < 4294967296)%N -> create_table new_table (lines_pair qhash R R') = Ok (0%nat, new_table).
Proof.
  intros [H1 H2]. unfold create_table, set_size. cbn [lines_pair sp_m sp_n]. unfold u32. fold (area R R'). rewrite N.mod_small by exact H2.
  unfold limit in H1. assert (N.ltb 16777216 (area R R') = true) as -> by lia. reflexivity.
Qed.
Lemma oversize_markers qhash R R' : create_markers new_table (lines_pair qhash R R') [] [] = Ok ([], []).
Proof. reflexivity. Qed.
(** C35. The lines of the edit and of the applied differences that touch it are the region: [R] in the source, [R'] in
    the edited text. [kept1] and [kept2] are the differences before and after it; they stay, those after it are moved. If the region
    fits into the table, the new differences describe the edited text (C32). If not, the touched differences are removed and
    nothing is inserted: the differences describe the edited text exactly when the region is now as in the source. *)
Theorem C35_edit_of_any_size qhash m ds S D1 old D2 new :
  listed m = Ok ds -> NoDup (dm_diffs m) -> describes 1 1 S (D1 ++ old ++ D2) ds ->
  harmless (1 + count D1) ds -> region_counts ds old new (1 + count D1) ->
  Forall short S -> Forall short (D1 ++ new ++ D2) ->
  exists m' ins rem ds' kept1 gone kept2 fresh A R B A' R' B',
    lines_changed qhash m old new (1 + count D1) = Ok (m', ins, rem) /\
    listed m' = Ok ds' /\ NoDup (dm_diffs m') /\
    ds = kept1 ++ gone ++ kept2 /\ length rem = length gone /\ length ins = length fresh /\
    ds' = kept1 ++ fresh ++ map (moved (count new - count old)) kept2 /\
    S = A ++ R ++ B /\ D1 ++ new ++ D2 = A' ++ R' ++ B' /\
    describes 1 1 A A' kept1 /\
    describes (1 + count A + count R) (1 + count A' + count R') B B' (map (moved (count new - count old)) kept2) /\
    Forall (fun d => d_applied d = true -> touched (1 + count D1) (1 + count D1 + count old) d = true) gone /\
    (Forall (fun d => d_applied d = false) gone -> (old, new) <> ([], []) -> R = old /\ R' = new) /\
    ((area R R' <= limit)%N -> describes 1 1 S (D1 ++ new ++ D2) ds') /\
    ((limit < area R R')%N -> fresh = [] /\ (describes 1 1 S (D1 ++ new ++ D2) ds' <-> R = R')).
Proof.
  intros HL Hn HD Hh Hfit HS1 HS2. set (edit := 1 + count D1) in *.
  assert (old = [] /\ new = [] \/ ~ (old = [] /\ new = [])) as [[-> ->]|Hne].
  { destruct old, new; auto; right; intros [? ?]; congruence. }
  - exists m, [], [], ds, ds, [], [], [], S, [], [], (D1 ++ D2), [], []. cbn [app map] in *. rewrite !app_nil_r in *.
    split; [reflexivity|]. split; [exact HL|]. split; [exact Hn|]. do 5 (split; [reflexivity|]). split; [reflexivity|]. split; [exact HD|]. split; [constructor|].
    split; [constructor|]. split; [intros _ Q; congruence|]. split; [intros _; exact HD|]. intros Q. exfalso. vm_compute in Q. discriminate.
  - pose proof (region_ok 1 S D1 old D2 new ds edit HD eq_refl Hh) as HR. cbv zeta in HR.
    unfold lines_changed.
    set (body := bind (deref_all (dm_store m) (dm_diffs m)) _).
    assert (match old with [] => match new with [] => Ok (m, [], []) | _ :: _ => body end | _ :: _ => body end = body) as ->.
    { destruct old, new; try reflexivity. exfalso; auto. }
    unfold body. clear body. unfold listed in HL. rewrite HL. cbn [bind]. fold (count old) (count new).
    destruct (until (starts_range edit) ds) as [pre rest].
    destruct (until (stops_range (edit + count old)) rest) as [mid post].
    destruct HR as (E & Ht & A & A' & R & R' & B & B' & E1 & E2 & Dpre & Dpost & En & El & Z1 & Z2 & Hnil).
    rewrite En, El. cbn [bind].
    assert ((area R R' < 4294967296)%N) as Hlim.
    { unfold region_counts in Hfit. cbv zeta in Hfit.
      pose proof (total_filter S_of (touched edit (edit + count old)) d_applied pre mid post ltac:(intros; apply count_pos) Ht) as T1.
      pose proof (total_filter D_of (touched edit (edit + count old)) d_applied pre mid post ltac:(intros; apply count_pos) Ht) as T2.
      rewrite <- E in T1, T2. fold S_of in Hfit. fold D_of in Hfit. unfold area.
      set (tS := total S_of (filter (touched edit (edit + count old)) ds)) in *.
      set (tD := total D_of (filter (touched edit (edit + count old)) ds)) in *.
      pose proof (count_pos R). pose proof (count_pos R').
      assert ((count R + 1) * (count R' + 1) < 4294967296) as Hz.
      { eapply Z.le_lt_trans; [|exact Hfit]. apply Z.mul_le_mono_nonneg; lia. }
      unfold count in *. lia. }
    assert (Forall short R /\ Forall short R') as [HR1 HR2].
    { rewrite E1 in HS1. rewrite E2 in HS2. apply Forall_app in HS1 as [_ HS1]. apply Forall_app in HS2 as [_ HS2].
      apply Forall_app in HS1 as [HS1 _]. apply Forall_app in HS2 as [HS2 _]. auto. }
    assert (NEWS : exists r mk1 mk2 news, create_table new_table (lines_pair qhash R R') = Ok r /\ create_markers (snd r) (lines_pair qhash R R') [] [] = Ok (mk1, mk2) /\
      marker_loop (length mk1 + length mk2) R R' (1 + count A) (1 + count A') (Z.of_nat (length R + length R' + 1)) mk1 mk2 0 0 = Ok news /\
      ((area R R' <= limit)%N -> describes (1 + count A) (1 + count A') R R' news) /\ ((limit < area R R')%N -> news = [])).
    { destruct (N.leb_spec (area R R') limit) as [Hl|Hl].
      - destruct (C10_line_markers_minimal_script qhash new_table R R' Hl) as (d & t' & m1 & m2 & C1 & C2 & C3 & C4 & C5 & C6 & C7).
        destruct (loop_ok (1 + count A) (1 + count A') (Z.of_nat (length R + length R' + 1)) (length m1 + length m2) m1 m2 [] R [] R') as (news & L1 & L2 & L3 & L4 & L5);
          [cbn [app]; unfold count; lia|exact C4|exact C5|exact C6|lia|exact HR1|exact HR2|].
        cbn [app] in L1. rewrite !count_nil in L1. exists (d, t'), m1, m2, news. split; [exact C1|]. split; [exact C2|]. split; [exact L1|]. split; [|intros; lia].
        intros _. eapply desc_cast; [exact L2| |]; rewrite count_nil; lia.
      - exists (0%nat, new_table), [], [], []. split; [apply oversize_table; split; assumption|]. split; [apply oversize_markers|]. split; [reflexivity|]. split; [intros; lia|reflexivity]. }
    destruct NEWS as (r & mk1 & mk2 & news & N1 & N2 & N3 & N4 & N5).
    rewrite N1. cbn [bind]. rewrite N2. cbn [bind]. rewrite N3. cbn [bind].
    pose proof (proj1 (deref_all_ok _ _ _ HL)) as Hlen.
    destruct (split_ids (dm_diffs m) ds pre mid post Hlen E) as (S1 & S2 & S3).
    destruct (split_deref _ _ _ _ _ _ _ _ _ HL E S1 S2 S3) as (P1 & P2 & P3).
    destruct (commit_ok m _ _ _ _ _ _ news (count new - count old) S1 Hn P1 P2 P3) as (st & Es & Hrep & Hsame).
    rewrite Es. cbn [bind].
    assert (DP : describes (1 + count A + count R) (1 + count A' + count R') B B' (map (moved (count new - count old)) post)).
    { apply (desc_shift (count new - count old)) in Dpost. eapply desc_cast; [exact Dpost| |]; lia. }
    do 3 eexists. exists (pre ++ news ++ map (moved (count new - count old)) post), pre, mid, post, news, A, R, B, A', R', B'.
    split; [reflexivity|]. destruct Hrep. split; [unfold listed; rewrite rp_new_ids, !deref_all_app, rp_pre', rp_ins', rp_post'; reflexivity|]. split; [exact rp_nodup|].
    split; [exact E|]. split; [exact S3|]. split; [apply seq_length|]. split; [reflexivity|]. split; [exact E1|]. split; [exact E2|]. split; [exact Dpre|]. split; [exact DP|].
    split. { apply Forall_forall. intros d Hd Ha. rewrite Forall_forall in Ht. apply Ht. apply filter_In. auto. }
    split. { intros Hu _. apply Hnil. clear - Hu. induction Hu as [|d l Hd Hu IH]; [reflexivity|]. cbn [filter]. now rewrite Hd. }
    split.
    + intros Hl. rewrite E1, E2. apply desc_app; [exact Dpre|]. apply desc_app; [exact (N4 Hl)|exact DP].
    + intros Hl. rewrite (N5 Hl). split; [reflexivity|]. cbn [app]. rewrite E1, E2. split; [now apply gap_exactly|]. intros <-. apply gap_right; assumption.
Qed.
(** An edit away from all differences whose lines do not fit into the table: all differences stay, nothing is inserted. *)
Theorem C35_oversize_edit_lost qhash m ds S D1 old D2 new :
  listed m = Ok ds -> NoDup (dm_diffs m) -> describes 1 1 S (D1 ++ old ++ D2) ds ->
  harmless (1 + count D1) ds -> filter (touched (1 + count D1) (1 + count D1 + count old)) ds = [] -> Forall (fun d => d_applied d = true) ds ->
  Forall short S -> Forall short (D1 ++ new ++ D2) -> (limit < area old new < 4294967296)%N ->
  exists m' ds', lines_changed qhash m old new (1 + count D1) = Ok (m', [], []) /\ listed m' = Ok ds' /\ length ds' = length ds /\
    (describes 1 1 S (D1 ++ new ++ D2) ds' <-> old = new).
Proof.
  intros HL Hn HD Hh Hf Ha HS1 HS2 [Hl Hu].
  assert (RC : region_counts ds old new (1 + count D1)).
  { unfold region_counts. cbv zeta. rewrite Hf. cbn [total]. unfold area in Hu. unfold count. lia. }
  destruct (C35_edit_of_any_size qhash m ds S D1 old D2 new HL Hn HD Hh RC HS1 HS2) as (m' & ins & rem & ds' & k1 & gone & k2 & fresh & A & R & B & A' & R' & B' & E & L' & _ & Eds & Lr & Li & Eds' & _ & _ & _ & _ & Tg & Rg & _ & Over).
  assert (gone = []) as ->.
  { destruct gone as [|d gone]; [reflexivity|]. exfalso. assert (In d ds) as Hd by (rewrite Eds, !in_app_iff; right; left; now left). rewrite Forall_forall in Ha. inversion Tg; subst.
    assert (In d (filter (touched (1 + count D1) (1 + count D1 + count old)) (k1 ++ (d :: gone) ++ k2))) as X by (apply filter_In; split; [exact Hd|auto]). rewrite Hf in X. destruct X. }
  destruct Rg as [-> ->]; [constructor|intros Q; injection Q as -> ->; vm_compute in Hl; discriminate|]. destruct (Over Hl) as [-> X]. destruct rem; [|discriminate]. destruct ins; [|discriminate].
  exists m', ds'. split; [exact E|]. split; [exact L'|]. split; [|exact X]. rewrite Eds, Eds', !app_length, map_length. reflexivity.
Qed.
(** The first of 5002 lines has been changed; then the last 5000 are replaced by 5000 others: nothing is inserted, and the one difference no longer
    describes the text. The whole computation is not run here (the table is never made); the theorem says what it does. *)
Example C35_oversize_lost_example :
  let old := repeat (lit "a") (N.to_nat 5000) in let new := repeat (lit "b") (N.to_nat 5000) in
  let d := mk_diff Change 1 1 1 [new_ds (lit "1")] [new_ds (lit "one")] true false true true in
  let m := with_contents C35_model [mk_hunk 1 1 [] HNormal [0%nat]] [0%nat] [d] in
  let S := [lit "1"; lit "2"] ++ old in
  describes 1 1 S ([lit "one"; lit "2"] ++ old ++ []) [d] /\
  exists m' ds', lines_changed ex_hash m old new 3 = Ok (m', [], []) /\ listed m' = Ok ds' /\ length ds' = 1%nat /\
    ~ describes 1 1 S ([lit "one"; lit "2"] ++ new ++ []) ds'.
Proof.
  intros old new d m S.
  assert (HD : describes 1 1 S ([lit "one"; lit "2"] ++ old ++ []) [d]).
  { rewrite app_nil_r. unfold S. change ([lit "1"; lit "2"] ++ old) with ([] ++ lines_of (d_slines d) ++ (lit "2" :: old)). change ([lit "one"; lit "2"] ++ old) with ([] ++ shown d ++ (lit "2" :: old)).
    apply desc_diff; [reflexivity|reflexivity|]. constructor. }
  split; [exact HD|].
  assert (SH : forall x n, short x -> Forall short (repeat x n)) by (intros x n Hx; apply Forall_forall; intros y Hy; apply repeat_spec in Hy; now subst).
  destruct (C35_oversize_edit_lost ex_hash m [d] S [lit "one"; lit "2"] old [] new) as (m' & ds' & E & L & N & X).
  - reflexivity.
  - repeat constructor. intros [].
  - exact HD.
  - intros pre d' post Q Ha. destruct pre as [|p pre]; [injection Q as <- <-; discriminate Ha|]. destruct pre; discriminate.
  - vm_compute. reflexivity.
  - repeat constructor.
  - unfold S. apply Forall_app. split; [repeat constructor|apply SH; repeat constructor].
  - rewrite app_nil_r. apply Forall_app. split; [repeat constructor|apply SH; repeat constructor].
  - vm_compute. split; reflexivity.
  - exists m', ds'. split; [exact E|]. split; [exact L|]. split; [exact N|]. intros H. apply X in H. apply (f_equal (fun l => nth_error l 0)) in H. vm_compute in H. discriminate.
Qed.
Print Assumptions C35_edit_of_any_size.
Print Assumptions C35_oversize_edit_lost.
Print Assumptions C35_oversize_lost_example.
