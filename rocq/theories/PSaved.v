(** Lemmas about what saving writes after a file has been blended, for any diff. *)
From Coq Require Import String Sorted.
From Verif Require Import Base QtStr Diff Save Parser SpecHistory SpecPatch SpecParse SpecText SpecUnified SpecNormal SpecContext Blend SpecBlend SpecWorkflow SpecSaved PHistory PropsText PEditLines PUnifiedDoc PBlend PSave PropsBlend PWorkflow.
Local Open Scope Z_scope.

Lemma choose_added i s t ls fs ds : choose fs (snd (added i s t ls) ++ ds) = ls ++ choose fs ds.
Proof. cbn [added snd app choose is_context more_lines set_lines new_diff d_type d_dlines]. now rewrite lines_new. Qed.
Lemma changes_app a b : changes_of (a ++ b) = (changes_of a + changes_of b)%nat.
Proof. unfold changes_of. now rewrite filter_app, app_length. Qed.
Lemma split_flags (fs : list bool) a b : length fs = (a + b)%nat -> exists f1 f2, fs = f1 ++ f2 /\ length f1 = a /\ length f2 = b.
Proof. intros L. exists (firstn a fs), (skipn a fs). rewrite firstn_skipn, firstn_length, skipn_length. split; [reflexivity|]. lia. Qed.

Lemma blend_hunks_laid : forall hs st src dst lines out st' s t tail, resolved st hs ->
  blend_hunks st src dst lines (map fst hs) = Ok (map fst out, st', s, t, tail) -> resolved st' out -> (exists more, st' = st ++ more) ->
  forall fs, length fs = changes_of (all_diffs hs) -> laid src fs lines hs (choose fs (all_diffs out) ++ tail).
Proof.
  induction hs as [|[h ds] hs IH]; intros st src dst lines out st' s t tail R E RO (more & EM) fs LF.
  - cbn in E. injection E as E1 E2 E3 E4 E5. destruct out; [|discriminate]. destruct fs; [|discriminate]. cbn. subst tail. constructor.
  - inversion_clear R as [|? ? R1 R2]. cbn [fst snd] in R1. cbn [map fst blend_hunks] in E.
    unfold all_diffs in LF. cbn [map concat snd] in LF. rewrite changes_app in LF. destruct (split_flags _ _ _ LF) as (f1 & f2 & -> & L1 & L2). clear LF.
    assert (PS : forall rs : list str, exists passed, rs = passed ++ skipn (Z.to_nat (sum_slc ds)) rs /\
       (length passed = length (SpecBlend.old_lines ds) \/ (length passed < length (SpecBlend.old_lines ds) /\ skipn (Z.to_nat (sum_slc ds)) rs = [])%nat)).
    { intros rs. exists (firstn (Z.to_nat (sum_slc ds)) rs). split; [symmetry; apply firstn_skipn|]. rewrite sum_slc_count. unfold count. rewrite Nat2Z.id, firstn_length.
      destruct (Nat.le_gt_cases (length (SpecBlend.old_lines ds)) (length rs)) as [L|L]; [left; lia|right]. split; [lia|]. apply skipn_all2. lia. }
    destruct (Z.ltb_spec src (h_src h)) as [B|B].
    + destruct (blend_while_spec (h_src h) lines src dst (new_diff src dst Unchanged)) as (tk & rs & EL & B1 & B2 & _ & F). rewrite F in E. clear F.
      set (nd := more_lines tk (new_diff src dst Unchanged)) in *.
      rewrite (deref_all_grow _ _ _ [nd] R1) in E. cbn [bind] in E.
      destruct (blend_hunks_any hs (st ++ [nd]) (src + count tk + sum_slc ds) (dst + count tk + sum_dlc ds) (skipn (Z.to_nat (sum_slc ds)) rs) (resolved_grow _ _ _ R2))
        as (out1 & more1 & s1 & t1 & tail1 & used1 & E1 & RR & _).
      rewrite E1 in E. cbn [bind app] in E. injection E as Eo Es _ _ Et.
      destruct out as [|[o1 d1] [|[o2 d2] out]]; try discriminate. cbn in Eo. injection Eo as Eo1 Eo2 Eo3. subst o1 o2.
      inversion_clear RO as [|? ? P1 RO1]. inversion_clear RO1 as [|? ? P2 RO2]. cbn [fst snd h_diffs] in P1, P2.
      assert (D1 : d1 = [nd]).
      { rewrite <- Es in P1. rewrite (deref_all_grow _ _ _ more1 (deref_last st nd)) in P1. now injection P1. }
      assert (D2 : d2 = ds).
      { rewrite <- Es, <- app_assoc in P2. rewrite (deref_all_grow _ _ _ ([nd] ++ more1) R1) in P2. now injection P2. }
      subst d1 d2.
      assert (LA : laid (src + count tk + sum_slc ds) f2 (skipn (Z.to_nat (sum_slc ds)) rs) hs (choose f2 (all_diffs out) ++ tail)).
      { eapply (IH (st ++ [nd]) _ (dst + count tk + sum_dlc ds) _ out st' s1 t1); [now apply resolved_grow| |exact RO2| |exact L2].
        - rewrite E1, <- Eo3, <- Es, <- Et. reflexivity.
        - exists more1. now symmetry. }
      unfold all_diffs in *. cbn [map concat snd]. change [nd] with (snd (added (length st) src dst tk)). rewrite choose_added, choose_app by exact L1. rewrite <- !app_assoc.
      destruct (PS rs) as (passed & EP & PL). rewrite EL. rewrite EP at 1. rewrite sum_slc_count in LA. apply la_hunk; [|exact PL|exact L1|rewrite <- sum_slc_count in *; exact LA].
      specialize (B2 ltac:(lia)). destruct B2 as [B2|B2]; [|left; exact B2].
      subst rs. rewrite skipn_nil in EP |- *. rewrite app_nil_r in EP. symmetry in EP. rewrite EP.
      destruct (Z.eq_dec (src + count tk) (h_src h)) as [Q|Q]; [left; exact Q|right]. right. specialize (B1 ltac:(lia)). split; [|split; reflexivity]. lia.
    + rewrite R1 in E. cbn [bind] in E.
      destruct (blend_hunks_any hs st (src + sum_slc ds) (dst + sum_dlc ds) (skipn (Z.to_nat (sum_slc ds)) lines) R2)
        as (out1 & more1 & s1 & t1 & tail1 & used1 & E1 & RR & _).
      rewrite E1 in E. cbn [bind app] in E. injection E as Eo Es _ _ Et.
      destruct out as [|[o2 d2] out]; try discriminate. cbn in Eo. injection Eo as Eo2 Eo3. subst o2.
      inversion_clear RO as [|? ? P2 RO2]. cbn [fst snd h_diffs] in P2.
      assert (D2 : d2 = ds).
      { rewrite <- Es in P2. rewrite (deref_all_grow _ _ _ more1 R1) in P2. now injection P2. }
      subst d2.
      assert (LA : laid (src + sum_slc ds) f2 (skipn (Z.to_nat (sum_slc ds)) lines) hs (choose f2 (all_diffs out) ++ tail)).
      { eapply (IH st _ (dst + sum_dlc ds) _ out st' s1 t1); [exact R2| |exact RO2|exists more1; now symmetry|exact L2].
        rewrite E1, <- Eo3, <- Es, <- Et. reflexivity. }
      unfold all_diffs in *. cbn [map concat snd]. rewrite choose_app by exact L1. rewrite <- !app_assoc.
      destruct (PS lines) as (passed & EP & PL). rewrite EP at 1. apply (la_hunk src [] passed); [right; left; split; [lia|reflexivity]|exact PL|exact L1|].
      change (count (@nil str)) with 0. rewrite Z.add_0_r, <- sum_slc_count. exact LA.
Qed.

Lemma blend_laid m hs text mb out : links m hs -> blend_file m text = Ok mb -> links mb out ->
  forall fs, length fs = changes_of (all_diffs hs) -> laid 1 fs (split_lines text) hs (choose fs (all_diffs out)).
Proof.
  intros [L1 L2 _ _ _ _] EB [B1 B2 _ _ _ _] fs LF. set (A := split_lines text) in *. set (st := dm_store m) in *.
  destruct (blend_hunks_any hs st 1 1 A L2) as (out0 & more & s & t & tail & used & E & RR & U & FI).
  assert (N0 : grown (length st) (length (st ++ more)) [] []) by (constructor; rewrite app_length; lia).
  pose proof (blend_hunks_grown (length st) hs st 1 1 A out0 (st ++ more) s t tail L2 (Nat.le_refl _) E RR (ex_intro _ more eq_refl) [] N0) as G.
  rewrite app_nil_r in G. destruct (grown_listed _ _ _ _ G) as [_ G2].
  pose proof (blend_hunks_laid hs st 1 1 A out0 (st ++ more) s t tail L2 E RR (ex_intro _ more eq_refl) fs LF) as LA.
  assert (LO : length fs = length (filter (fun d => negb (is_context d)) (all_diffs out0))).
  { rewrite LF. unfold changes_of. now rewrite G2. }
  unfold blend_file in EB. cbn [with_blended dm_store dm_hunks dm_diffs] in EB. fold st A in EB. rewrite L1, E in EB. cbn [bind] in EB.
  destruct tail as [|l ls].
  - injection EB as EB. rewrite app_nil_r in LA.
    assert (X : out = out0).
    { apply (resolved_unique (dm_store mb)); [exact B2|rewrite <- EB; exact RR|]. rewrite <- B1, <- EB. reflexivity. }
    rewrite X. exact LA.
  - rewrite blend_rest_spec in EB. unfold alloc_diff in EB. cbn [with_store] in EB. injection EB as EB.
    set (nd := more_lines (l :: ls) (new_diff s t Unchanged)) in *.
    assert (X : out = out0 ++ [added (length (st ++ more)) s t (l :: ls)]).
    { apply (resolved_unique (dm_store mb)); [exact B2| |].
      - rewrite <- EB. apply Forall_app. split.
        + change (resolved ((st ++ more) ++ [nd]) out0). now apply resolved_grow.
        + constructor; [|constructor]. change (deref_all ((st ++ more) ++ [nd]) [length (st ++ more)] = Ok [nd]). apply deref_last.
      - rewrite <- B1, <- EB, map_app. reflexivity. }
    rewrite X. unfold all_diffs in *. rewrite map_app, concat_app. rewrite <- (app_nil_r fs) at 2. rewrite choose_app by exact LO.
    replace (concat (map snd [added (length (st ++ more)) s t (l :: ls)])) with (snd (added (length (st ++ more)) s t (l :: ls)) ++ []) by (cbn [map concat]; reflexivity).
    rewrite choose_added. cbn [choose]. rewrite app_nil_r. exact LA.
Qed.
Lemma laid_alike : forall s fs A hs R, laid s fs A hs R -> forall hs', Forall2 alike hs' hs -> laid s fs A hs' R.
Proof.
  induction 1 as [s lines|s gap passed lines h ds hs f1 f2 R E1 E2 E3 T IH]; intros hs' F.
  - inversion_clear F. constructor.
  - destruct hs' as [|[h' ds'] hs'']; [inversion F|]. assert (X : alike (h', ds') (h, ds) /\ Forall2 alike hs'' hs) by (inversion F; auto).
    destruct X as [[EH A0] F']. cbn [fst snd] in EH, A0. subst h'. clear F.
    assert (A1 : Forall2 similar ds' ds) by (clear -A0; induction A0 as [|? ? ? ? [S _] _ IH]; constructor; auto).
    destruct (similar_lines _ _ A1) as (O & N & SD). rewrite (choose_alike f1 _ _ A1). constructor; [exact E1|rewrite <- O; exact E2| |].
    + rewrite E3. unfold changes_of. clear -A1. induction A1 as [|d d' ds ds' S _ IH]; [reflexivity|]. cbn. rewrite (similar_context _ _ S). destruct (negb (is_context d)); cbn; now rewrite IH.
    + rewrite <- O. auto.
Qed.
Lemma same_cut {A} (a b c d : list A) : a ++ b = c ++ d -> length a = length c -> a = c /\ b = d.
Proof. revert c. induction a as [|x a IH]; intros [|y c] E L; cbn in *; try discriminate; [auto|]. injection E as -> E. injection L as L. destruct (IH c E L) as [-> ->]. auto. Qed.
(** What is written is told by the hunks, the flags and the file. *)
Lemma laid_one : forall hs s fs A R R', laid s fs A hs R -> laid s fs A hs R' -> R' = R.
Proof.
  induction hs as [|[h ds] hs IH]; intros s fs A R R' L L'.
  - inversion L; inversion L'; subst; reflexivity.
  - inversion L as [|s1 gap passed lines h1 ds1 hs1 f1 f2 R1 E1 E2 E3 T Q1 Q2 Q3 Q4 Q5]. subst s1 h1 ds1 hs1. clear L.
    inversion L' as [|s1 gap' passed' lines' h1 ds1 hs1 g1 g2 R2 F1 F2 F3 T' P1 P2 P3 P4 P5]. subst s1 h1 ds1 hs1. clear L'.
    rewrite <- P2 in Q2. destruct (same_cut _ _ _ _ Q2 ltac:(lia)) as [-> ->]. rewrite <- P3 in Q3.
    assert (G : gap = gap').
    { assert (X : length gap = length gap').
      { apply (f_equal (@length str)) in Q3. rewrite !app_length in Q3. unfold str, count in *.
        destruct E1 as [E1|[[E1 ->]|[E1 [-> ->]]]], F1 as [F1|[[F1 ->]|[F1 [-> ->]]]]; cbn [length] in *; lia. }
      exact (proj1 (same_cut _ _ _ _ Q3 X)). }
    subst gap'. apply app_inv_head in Q3.
    assert (X : length passed = length passed').
    { apply (f_equal (@length str)) in Q3. rewrite !app_length in Q3. unfold str in *.
      destruct E2 as [E2|[E2 ->]], F2 as [F2|[F2 ->]]; cbn [length] in *; lia. }
    destruct (same_cut _ _ _ _ Q3 X) as [-> ->]. now rewrite (IH _ _ _ _ _ T T').
Qed.

(** * Context diffs *)
Lemma ended_length ls : length (ended ls) = length ls. Proof. unfold ended. apply map_length. Qed.
Lemma ended_count ls : count (ended ls) = count ls. Proof. unfold count. now rewrite ended_length. Qed.
Lemma ended_app a b : ended (a ++ b) = ended a ++ ended b. Proof. unfold ended. apply map_app. Qed.
Lemma ended_size ls : length (concat (ended ls)) = (length (concat ls) + length ls)%nat.
Proof. induction ls as [|l ls IH]; [reflexivity|]. cbn. rewrite !app_length. unfold ended in IH. unfold str, chr in *. rewrite IH. cbn. lia. Qed.
(** The lines of the file are cut where the numbers say. *)
Lemma laid_cut s n (gap passed lines same old rest : list str) (k : nat) : gap ++ passed ++ lines = same ++ old ++ rest -> length old = k -> n = s + count same ->
  s + count gap = n \/ (n <= s /\ gap = []) \/ (s + count gap < n /\ passed = [] /\ lines = []) ->
  length passed = k \/ (length passed < k /\ lines = [])%nat -> gap = same /\ passed = old /\ lines = rest.
Proof.
  intros E K N E1 E2. pose proof E as EL. apply (f_equal (@length str)) in EL. rewrite !app_length in EL. unfold str, count in *.
  assert (G : length gap = length same).
  { destruct E1 as [E1|[[E1 ->]|[E1 [-> ->]]]]; cbn [length] in *; lia. }
  destruct (same_cut _ _ _ _ E G) as [-> E']. split; [reflexivity|].
  assert (P : length passed = length old). { destruct E2 as [E2|[E2 ->]]; cbn [length] in *; lia. }
  exact (same_cut _ _ _ _ E' P).
Qed.
Lemma laid_context f s t A B us : cpatches f s t A B us -> forall hs, Forall2 chunk_is us hs -> forall fs R, laid s fs A hs R -> cmixed (fun l => l) s fs A us R.
Proof.
  induction 1 as [f s t same|f s t same A B u us HF HA HB P IH]; intros hs F fs R L.
  - inversion F; subst. inversion L; subst. constructor.
  - inversion F as [|? p ? hs' H F' E1 E2]. subst. destruct p as [h ds]. destruct H as (A1 & B1 & _ & _ & SG & CO & _). cbn [fst snd] in *.
    inversion L as [|s1 gap passed lines h1 ds1 hs1 f1 f2 R1 G1 G2 G3 T Q1 Q2 Q3 Q4 Q5]. subst s1 h1 ds1 hs1 fs R. clear L.
    destruct (seg_lines _ _ SG) as [L1 L2].
    destruct (laid_cut s (h_src h) gap passed lines same (ended (concat (map src_lines (ch_segs u)))) A (length (SpecBlend.old_lines ds))) as (-> & -> & ->);
      [exact Q3|now rewrite ended_length, L1|congruence|exact G1|exact G2|].
    rewrite (choose_pick _ _ SG). apply (cm_hunk (fun l => l)); [congruence|rewrite G3; unfold changes_of; now rewrite <- (seg_changes _ _ SG)|].
    unfold src_count in *. rewrite HA, <- L1 in IH. rewrite HA, <- L1. exact (IH _ F' _ _ T).
Qed.
(** The mixture that is wanted, and its size. *)
Lemma cmixed_size w n : forall us s fs A R, cmixed w s fs A us R -> (forall ls, length (concat (w ls)) = length (concat ls) + n * length ls)%nat ->
  (length (concat R) + length (concat (ended (concat (map src_lines (concat (map ch_segs us)))))) =
   length (concat A) + length (concat (pick fs (concat (map ch_segs us)))) + n * length (pick fs (concat (map ch_segs us))))%nat.
Proof.
  assert (PA : forall ss f1 f2 ss', length f1 = length (filter is_change ss) -> pick (f1 ++ f2) (ss ++ ss') = pick f1 ss ++ pick f2 ss').
  { induction ss as [|[ls|r a] ss IH]; intros f1 f2 ss' L; cbn in *.
    - destruct f1; [reflexivity|discriminate].
    - now rewrite IH, app_assoc.
    - destruct f1 as [|f f1]; [discriminate|]. cbn. rewrite IH by (now injection L). now rewrite app_assoc. }
  intros us s fs A R M W. induction M as [s same|s same A h hs f1 f2 R HA HL M IH].
  - cbn. lia.
  - cbn [map concat] in *. rewrite map_app, !concat_app, ended_app, PA by exact HL. rewrite !concat_app, !app_length, W. unfold str, chr in *. lia.
Qed.
Lemma cmixed_exists w f s t A B us : cpatches f s t A B us -> forall fs, length fs = cchanges us -> exists R, cmixed w s fs A us R.
Proof.
  induction 1 as [f s t same|f s t same A B u us HF HA HB P IH]; intros fs L.
  - destruct fs; [|discriminate]. exists same. constructor.
  - unfold cchanges in L. cbn [map concat] in L. rewrite filter_app, app_length in L. destruct (split_flags _ _ _ L) as (f1 & f2 & -> & L1 & L2).
    destruct (IH f2 L2) as [R HR]. eexists. apply cm_hunk; [exact HA|exact L1|exact HR].
Qed.
Lemma chunk_pick u : chunk_ok u -> forall f1 f2 ss, length f1 = length (filter is_change (ch_segs u)) -> (0 < length (pick (f1 ++ f2) (ch_segs u ++ ss)))%nat.
Proof.
  intros [_ _ [T1 T2] _ OK AL _] f1 f2 ss L. unfold src_count, dst_count in *. destruct (ch_segs u) as [|[ls|r a] [|[ls2|r2 a2] sg]]; cbn [map concat src_lines dst_lines] in *; unfold count in *.
  - cbn in T1. lia.
  - rewrite app_nil_r in T1. cbn [app pick]. rewrite app_length. unfold str, chr in *. lia.
  - inversion_clear AL as [|? ? ? X]. inversion X as [|? ? Y]. destruct Y.
  - inversion_clear OK as [|? ? (_ & _ & O) _]. cbn [app pick]. rewrite app_length. destruct ls; [exfalso; apply O; split; reflexivity|]. cbn [length]. lia.
  - rewrite !app_nil_r in T1, T2. destruct f1 as [|f f1]; [discriminate|]. cbn [app pick]. rewrite app_length. destruct f; unfold str, chr in *; lia.
  - inversion_clear OK as [|? ? _ OK2]. inversion_clear OK2 as [|? ? (_ & _ & O) _]. destruct f1 as [|f f1]; [discriminate|]. cbn [app pick]. rewrite !app_length.
    destruct ls2; [exfalso; apply O; split; reflexivity|]. cbn [length]. lia.
  - inversion_clear AL as [|? ? ? X]. inversion X as [|? ? Y]. destruct Y.
Qed.
Lemma chunk_order ss ds : Forall2 seg_is ss ds -> Forall cseg_ok ss -> Sorted alternate ss -> forall a b, contiguous a b ds ->
  let l := map d_dst (filter (fun d => negb (is_context d)) ds) in
  StronglySorted Z.lt l /\ Forall (fun z => b <= z <= b + count (SpecBlend.new_lines ds)) l /\
  (match ss with Ctx _ :: _ => Forall (fun z => b < z) l | _ => True end).
Proof.
  induction 1 as [|s d ss ds H F IH]; intros OK SO a b CO.
  - cbn. repeat constructor.
  - inversion_clear OK as [|? ? OK1 OK2]. inversion_clear SO as [|? ? SO1 SO2]. destruct CO as (C1 & C2 & C3 & C4).
    destruct (IH OK2 SO1 _ _ C4) as (I1 & I2 & I3). clear IH. cbn [filter]. rewrite (seg_context _ _ H), negb_involutive.
    destruct H as (L1 & L2 & _). assert (E : count (d_dlines d) = count (dst_lines s)) by (rewrite <- L2; now rewrite count_lines).
    rewrite new_cons, count_app, count_lines. pose proof (count_nonneg (d_dlines d)) as P. pose proof (count_nonneg (SpecBlend.new_lines ds)) as P2.
    destruct s as [ls|r x]; cbn [is_change map dst_lines src_lines] in *.
    + assert (LN : 0 < count ls) by (apply count_pos; intros ->; destruct OK1 as (_ & _ & N); apply N; split; reflexivity).
      split; [exact I1|]. split; (eapply Forall_impl; [|exact I2]); cbn; intros z Z; unfold str, chr in *; lia.
    + assert (ST : Forall (fun z => b < z) (map d_dst (filter (fun d => negb (is_context d)) ds))).
      { destruct ss as [|s2 ss]; [inversion_clear F; constructor|]. inversion_clear SO2 as [|? ? M]. destruct s2 as [l2|r2 a2]; [|destruct M].
        eapply Forall_impl; [|exact I3]. cbn. intros z. pose proof (count_nonneg x). unfold str, chr in *. lia. }
      split; [constructor; [exact I1|rewrite C2; exact ST]|]. split; [|exact I].
      constructor; [lia|]. eapply Forall_impl; [|exact I2]. cbn beta. intros z. lia.
Qed.
Lemma cpatches_order f s t A B us : cpatches f s t A B us -> forall hs, Forall2 chunk_is us hs -> Forall chunk_ok us ->
  let l := map d_dst (filter (fun d => negb (is_context d)) (all_diffs hs)) in
  StronglySorted Z.lt l /\ Forall (fun z => (if f then t else t + 1) <= z) l.
Proof.
  induction 1 as [f s t same|f s t same A B u us HF HA HB P IH]; intros hs F OK.
  - inversion_clear F. split; constructor.
  - inversion F as [|? p ? hs' H F' E1 E2]. subst. inversion_clear OK as [|? ? OK1 OK2]. destruct p as [h ds]. destruct H as (A1 & B1 & _ & _ & SG & CO & _). cbn [fst snd] in *.
    destruct OK1 as [_ _ _ _ O1 O2 _]. destruct (chunk_order _ _ SG O1 O2 _ _ CO) as (I1 & I2 & _). destruct (IH _ F' OK2) as (J1 & J2).
    unfold all_diffs in *. cbn [map concat snd]. rewrite filter_app, map_app.
    set (l1 := map d_dst (filter _ ds)) in *. set (l2 := map d_dst (filter _ (concat (map snd hs')))) in *.
    destruct (seg_lines _ _ SG) as [_ L2]. unfold dst_count in J2. rewrite <- L2 in J2. pose proof (count_nonneg (SpecBlend.new_lines ds)) as PP. pose proof (count_nonneg same) as P1.
    assert (TB : (if f then t else t + 1) <= ch_b u).
    { destruct f; [lia|]. specialize (HF eq_refl). pose proof (count_pos _ HF). lia. }
    split.
    + clear -I1 I2 J1 J2. induction l1 as [|z l IHl]; [exact J1|]. inversion_clear I1 as [|? ? S1 S2]. inversion_clear I2 as [|? ? Z1 Z2]. cbn. constructor; [auto|].
      apply Forall_app. split; [exact S2|]. eapply Forall_impl; [|exact J2]. cbn beta. intros w. unfold str, chr in *. lia.
    + apply Forall_app. split; [eapply Forall_impl; [|exact I2]|eapply Forall_impl; [|exact J2]]; cbn beta; intros z; unfold str, chr in *; lia.
Qed.
Lemma pristine_fresh m hs : contents m hs ->
  Forall (fun d => pristine d /\ d_track d = d_src d /\ (is_context d = true -> lines_of (d_slines d) = lines_of (d_dlines d))) (all_diffs hs) ->
  StronglySorted Z.lt (map d_dst (filter (fun d => negb (is_context d)) (all_diffs hs))) ->
  context_same hs /\ fresh m (filter (fun d => negb (is_context d)) (all_diffs hs)).
Proof.
  intros [L (S1 & S2 & S3 & S4)] PR O1. split.
  - unfold context_same. eapply Forall_impl; [|exact PR]. cbn. intros d ((Q & _) & _ & Q2) C. auto.
  - destruct L as [L1 L2 L3 L4 L5 L6]. split; auto.
    + intros h I i J. rewrite L1 in I. apply in_map_iff in I as (q & <- & Q). rewrite Forall_forall in L2. eapply deref_all_lt; [exact (L2 q Q)|exact J].
    + intros d I. apply filter_In in I as [I C]. rewrite Forall_forall in PR. destruct (PR d I) as ((Q1 & Q2 & Q3 & Q4) & Q5 & _). rewrite C in Q4. auto.
    + now apply strongly_increasing.
Qed.
Lemma chunks_fresh p m : Forall chunk_ok (cp_chunks p) -> chunks_are p m -> forall A B, cpatches true 1 1 A B (cp_chunks p) ->
  exists hs, links m hs /\ context_same hs /\ Forall2 chunk_is (cp_chunks p) hs /\
    fresh m (filter (fun d => negb (is_context d)) (all_diffs hs)) /\
    length (filter (fun d => negb (is_context d)) (all_diffs hs)) = cchanges (cp_chunks p).
Proof.
  intros OK (hs & C & F) A B P. exists hs. split; [apply C|].
  destruct (cpatches_order _ _ _ _ _ _ P _ F OK) as (O1 & _).
  destruct (pristine_fresh m hs C) as [CS FR]; [|exact O1|].
  { clear -F. unfold all_diffs. induction F as [|u q us hs (_ & _ & _ & _ & SG & CO & PR) F IH]; [constructor|]. cbn [map concat]. apply Forall_app. split; [|exact IH].
    pose proof (contiguous_track _ _ _ CO) as T. clear -T PR SG. induction SG as [|s d ss ds S SG IH]; [constructor|]. inversion_clear PR. inversion_clear T. constructor; [|auto].
    split; [assumption|]. split; [assumption|]. rewrite (seg_context _ _ S). destruct S as (E1 & E2 & _), s; [|discriminate]. rewrite E1, E2. reflexivity. }
  split; [exact CS|]. split; [exact F|]. split; [exact FR|].
  unfold cchanges, all_diffs. clear -F. induction F as [|u q us hs (_ & _ & _ & _ & SG & _) F IH]; [reflexivity|]. cbn [map concat]. rewrite !filter_app, !app_length, IH, (seg_changes _ _ SG). reflexivity.
Qed.

(** * Normal diffs *)
Lemma cmd_context c p : cmd_is c p -> filter (fun d => negb (is_context d)) (snd p) = snd p /\ forall fs f, choose (f :: fs) (snd p) = (if f : bool then SpecNormal.old_lines c else SpecNormal.new_lines c).
Proof.
  intros (_ & _ & _ & _ & d & E & T & _ & _ & _ & L1 & L2 & _). rewrite E. assert (C : is_context d = false) by (unfold is_context; rewrite T; destruct c; reflexivity).
  cbn [filter choose]. rewrite C. cbn [negb]. split; [reflexivity|]. intros fs f. rewrite L1, L2. destruct f; apply app_nil_r.
Qed.
Lemma ncommands_order f s t A B cs : ncommands f s t A B cs -> forall hs, Forall2 cmd_is cs hs -> Forall cmd_ok cs ->
  let l := map d_dst (filter (fun d => negb (is_context d)) (all_diffs hs)) in
  StronglySorted Z.lt l /\ Forall (fun z => (if f then t - 1 else t) <= z) l.
Proof.
  induction 1 as [f s t same|f s t same A B c cs HF HA HB P IH]; intros hs F OK.
  - inversion_clear F. split; constructor.
  - inversion F as [|? p ? hs' H F' E1 E2]. subst. inversion_clear OK as [|? ? OK1 OK2]. destruct (IH _ F' OK2) as (J1 & J2).
    pose proof (cmd_context _ _ H) as [CF _]. destruct H as (A1 & B1 & _ & _ & d & ED & _ & _ & DD & _).
    unfold all_diffs in *. cbn [map concat]. rewrite filter_app, CF, ED. cbn [app map]. rewrite DD. pose proof (count_nonneg same) as P1.
    assert (P2 : f = false -> 0 < count same) by (intros X; apply count_pos, HF, X).
    assert (P3 : cmd_type c <> Delete -> 0 < count (SpecNormal.new_lines c)) by (intros X; apply count_pos, (cm_new _ OK1 X)).
    pose proof (count_nonneg (SpecNormal.new_lines c)) as P4.
    split; constructor.
    + exact J1.
    + eapply Forall_impl; [|exact J2]. cbn beta iota. intros z Z. rewrite HB. destruct c; cbn [cmd_type] in P3; try (specialize (P3 ltac:(discriminate))); unfold str, chr in *; lia.
    + rewrite HB. destruct f; [|specialize (P2 eq_refl)]; destruct c; unfold str, chr in *; lia.
    + eapply Forall_impl; [|exact J2]. cbn beta iota. intros z Z. destruct f; unfold str, chr in *; lia.
Qed.
Lemma commands_fresh cs m : Forall cmd_ok cs -> commands_are cs m -> forall A B, ncommands true 1 1 A B cs ->
  exists hs, links m hs /\ context_same hs /\ Forall2 cmd_is cs hs /\
    fresh m (filter (fun d => negb (is_context d)) (all_diffs hs)) /\
    length (filter (fun d => negb (is_context d)) (all_diffs hs)) = length cs.
Proof.
  intros OK (hs & C & F) A B P. exists hs. split; [apply C|].
  destruct (ncommands_order _ _ _ _ _ _ P _ F OK) as (O1 & _).
  destruct (pristine_fresh m hs C) as [CS FR]; [|exact O1|].
  { clear -F. unfold all_diffs. induction F as [|c q cs hs H F IH]; [constructor|]. cbn [map concat]. apply Forall_app. split; [|exact IH].
    destruct H as (_ & _ & _ & _ & d & -> & T & D1 & _ & D2 & _ & _ & PR & _). constructor; [|constructor]. split; [exact PR|]. split; [congruence|].
    unfold is_context. rewrite T. destruct c; discriminate. }
  split; [exact CS|]. split; [exact F|]. split; [exact FR|].
  unfold all_diffs. clear -F. induction F as [|c q cs hs H F IH]; [reflexivity|]. cbn [map concat]. rewrite filter_app, app_length, IH, (proj1 (cmd_context _ _ H)).
  destruct H as (_ & _ & _ & _ & d & -> & _). reflexivity.
Qed.
Lemma laid_normal f s t A B cs : ncommands f s t A B cs -> forall hs, Forall2 cmd_is cs hs -> forall pre fs R, (f = true -> s = 1 /\ pre = []) ->
  laid (s - count pre) fs (pre ++ A) hs R -> nwritten (s - count pre) fs (pre ++ A) cs R.
Proof.
  induction 1 as [f s t same|f s t same A B c cs HF HA HB P IH]; intros hs F pre fs R HP L.
  - inversion F; subst. inversion L; subst. constructor.
  - inversion F as [|? p ? hs' H F' E1 E2]. subst. destruct p as [h ds]. pose proof (cmd_context _ _ H) as [CF CH]. cbn [fst snd] in *.
    assert (OL : SpecBlend.old_lines ds = SpecNormal.old_lines c).
    { destruct H as (_ & _ & _ & _ & d & ED & _ & _ & _ & _ & L1 & _). cbn [snd] in ED. subst ds. now rewrite old_one. }
    assert (CD : changes_of ds = 1%nat).
    { unfold changes_of. rewrite CF. destruct H as (_ & _ & _ & _ & d & ED & _). cbn [snd] in ED. now subst ds. }
    destruct H as (A1 & _). cbn [fst] in A1.
    inversion L as [|s1 gap passed lines h1 ds1 hs1 f1 f2 R1 G1 G2 G3 T Q1 Q2 Q3 Q4 Q5]. subst s1 h1 ds1 hs1 fs R. clear L.
    rewrite CD in G3. destruct f1 as [|f1 [|? ?]]; try discriminate. rewrite CH. rewrite OL in G2, T. cbn [app]. clear G3 CH CD CF.
    assert (NA : cmd_type c <> Insert -> nwritten (s - count pre) (f1 :: f2) (pre ++ same ++ ended (SpecNormal.old_lines c) ++ A) (c :: cs)
        (gap ++ (if f1 then SpecNormal.old_lines c else SpecNormal.new_lines c) ++ R1)).
    { intros NI. assert (HA' : old_number c = s + count same) by (destruct c; [exfalso; apply NI; reflexivity|exact HA|exact HA]).
      destruct (laid_cut (s - count pre) (h_src h) gap passed lines (pre ++ same) (ended (SpecNormal.old_lines c)) A (length (SpecNormal.old_lines c))) as (-> & -> & ->);
        [rewrite <- app_assoc; exact Q3|apply ended_length|rewrite count_app; lia|exact G1|exact G2|].
      rewrite (app_assoc pre same). apply nw_cmd; [exact NI|rewrite count_app; lia|].
      specialize (IH _ F' [] f2 R1 ltac:(discriminate)). change (count (@nil str)) with 0 in IH. rewrite Z.sub_0_r in IH. cbn [app] in IH.
      replace (s - count pre + count (pre ++ same)) with (s + count same) in * by (rewrite count_app; lia). apply IH, T. }
    destruct c as [n m a|n m r|n m r a]; [clear NA|rewrite Q3; apply NA; discriminate|rewrite Q3; apply NA; discriminate]; rewrite Q3.
    cbn [old_number SpecNormal.old_lines SpecNormal.new_lines ended map app] in *. change (count (@nil str)) with 0 in *. rewrite Z.add_0_r in *.
    assert (PN : passed = []) by (destruct passed; [reflexivity|]; destruct G2 as [G2|[G2 _]]; cbn in G2; lia). subst passed. cbn [app] in Q3. clear G2.
    destruct same as [|x same0] eqn:ES.
    + destruct f; [|exfalso; apply HF; reflexivity]. destruct (HP eq_refl) as [-> ->]. change (count (@nil str)) with 0 in *. cbn [app] in *. rewrite Z.sub_0_r, Z.add_0_r in *.
      assert (gap = []) by (destruct gap as [|g gap]; [reflexivity|]; unfold count in G1; cbn [length] in G1; destruct G1 as [G1|[[_ G1]|[G1 [_ ->]]]]; [lia|discriminate|lia]). subst gap.
      cbn [app] in *. subst lines. apply (nw_add 1 [] A n m a cs f1 f2 R1); [right; split; [lia|auto]|].
      specialize (IH _ F' [] f2 R1 ltac:(discriminate)). change (count (@nil str)) with 0 in *. rewrite Z.sub_0_r in IH. exact (IH T).
    + assert (NE : same <> []) by (rewrite ES; discriminate). rewrite <- ES in *. clear ES x same0.
      destruct (exists_last NE) as (sm & z & ->). rewrite count_app in *. change (count [z]) with 1 in *.
      assert (G : gap = pre ++ sm /\ lines = [z] ++ A).
      { rewrite <- (app_assoc sm), app_assoc in Q3. apply same_cut in Q3; [destruct Q3; auto|].
        apply (f_equal (@length str)) in Q3. rewrite !app_length in Q3. rewrite app_length. unfold str, count in *. cbn [length] in *.
        destruct G1 as [G1|[[G1 ->]|[G1 [_ ->]]]]; cbn [length] in *; lia. }
      destruct G as [-> ->]. replace (pre ++ (sm ++ [z]) ++ A) with ((pre ++ sm) ++ ([z] ++ A)) by (now rewrite <- !app_assoc).
      apply nw_add; [left; rewrite count_app; lia|].
      specialize (IH _ F' [z] f2 R1 ltac:(discriminate)). change (count [z]) with 1 in IH.
      replace (s - count pre + count (pre ++ sm)) with (s + (count sm + 1) - 1) in * by (rewrite count_app; lia). exact (IH T).
Qed.
Lemma nmixed_exists f s t A B cs : ncommands f s t A B cs -> forall fs, length fs = length cs -> exists W, nmixed s fs A cs W.
Proof.
  induction 1 as [f s t same|f s t same A B c cs HF HA HB P IH]; intros fs L.
  - destruct fs; [|discriminate]. exists same. constructor.
  - destruct fs as [|f1 fs]; [discriminate|]. destruct (IH fs ltac:(now injection L)) as [W HW]. eexists. apply nm_cmd; [exact HA|exact HW].
Qed.
Definition chosen (f : bool) (c : ncmd) : list str := if f then SpecNormal.old_lines c else SpecNormal.new_lines c.
Fixpoint all_chosen (fs : list bool) (cs : list ncmd) : list str :=
  match fs, cs with f :: fs', c :: cs' => chosen f c ++ all_chosen fs' cs' | _, _ => [] end.
Lemma nwritten_size s fs A cs R : nwritten s fs A cs R ->
  (length (concat R) + length (concat (ended (concat (map SpecNormal.old_lines cs)))) = length (concat A) + length (concat (all_chosen fs cs)))%nat.
Proof.
  induction 1 as [s same|s same A c cs f fs R NI HN W IH|s same A n m a cs f fs R HN W IH]; cbn [map concat all_chosen].
  - cbn. lia.
  - fold (chosen f c). rewrite ended_app, !concat_app, !app_length. unfold str, chr in *. lia.
  - cbn [SpecNormal.old_lines app]. change (if f then [] else a) with (chosen f (NAdd n m a)). rewrite !concat_app, !app_length. unfold str, chr in *. lia.
Qed.
Lemma nmixed_size s fs A cs R : nmixed s fs A cs R ->
  (length (concat R) + length (concat (ended (concat (map SpecNormal.old_lines cs)))) = length (concat A) + length (concat (all_chosen fs cs)) + length (all_chosen fs cs))%nat.
Proof.
  induction 1 as [s same|s same A c cs f fs R HN W IH]; cbn [map concat all_chosen app].
  - cbn. lia.
  - fold (chosen f c). rewrite ended_app, !concat_app, !app_length. pose proof (ended_size (chosen f c)). unfold str, chr in *. lia.
Qed.
Lemma nothing_chosen : forall cs s fs A W, nmixed s fs A cs W -> all_chosen fs cs = [] -> forall pre R, nwritten (s - count pre) fs (pre ++ A) cs R -> R = pre ++ W.
Proof.
  induction cs as [|c cs IH]; intros s fs A W M N pre R L.
  - inversion M; subst. inversion L; subst. reflexivity.
  - inversion M as [|s1 same A1 c1 cs1 f fs1 W1 HN M1 Q1 Q2 Q3 Q4 Q5]. subst s1 c1 cs1 fs A W. clear M.
    cbn [all_chosen] in N. fold (chosen f c). apply app_eq_nil in N as [N1 N2]. rewrite N1. cbn [ended map app].
    inversion L as [|s1 same2 A2 c1 cs1 f' fs' R1 NI HN2 L1 Q1 Q2 Q3 Q4 Q5|s1 same2 A2 n m a cs1 f' fs' R1 HN2 L1 Q1 Q2 Q3 Q4 Q5].
    + subst s1 c1 cs1 f' fs' R. clear L. fold (chosen f c). rewrite N1. cbn [app].
      assert (HA' : old_number c = s + count same) by (destruct c; [exfalso; apply NI; reflexivity|exact HN|exact HN]).
      assert (E : same2 = pre ++ same /\ A2 = A1).
      { rewrite (app_assoc pre same) in Q3. apply same_cut in Q3; [|rewrite app_length; unfold str, chr, count in *; lia]. destruct Q3 as [-> Q3]. split; [reflexivity|]. now apply app_inv_head in Q3. }
      destruct E as [-> ->]. replace (s - count pre + count (pre ++ same)) with (s + count same) in L1 by (rewrite count_app; lia).
      specialize (IH _ _ _ _ M1 N2 [] R1). change (count (@nil str)) with 0 in IH. rewrite Z.sub_0_r in IH. rewrite (IH L1). cbn [app]. now rewrite app_assoc.
    + subst s1 c cs1 f' fs' R. clear L. unfold chosen in *. cbn [SpecNormal.old_lines SpecNormal.new_lines] in *. rewrite N1. cbn [app ended map] in *. cbn [old_number] in HN.
      change (count (@nil str)) with 0 in *. rewrite Z.add_0_r in M1.
      assert (X : exists last, pre ++ same = same2 ++ last /\ A2 = last ++ A1).
      { assert (LE : (length same2 <= length (pre ++ same))%nat).
        { rewrite app_length. destruct HN2 as [HN2|(_ & _ & ->)]; unfold str, chr, count in *; cbn [length]; lia. }
        exists (skipn (length same2) (pre ++ same)).
        assert (E : same2 = firstn (length same2) (pre ++ same)).
        { rewrite (app_assoc pre same) in Q3. apply (f_equal (firstn (length same2))) in Q3. rewrite firstn_app, Nat.sub_diag, firstn_all, firstn_O, app_nil_r in Q3.
          rewrite firstn_app in Q3. replace (length same2 - length (pre ++ same))%nat with 0%nat in Q3 by lia. rewrite firstn_O, app_nil_r in Q3. exact Q3. }
        assert (E2 : pre ++ same = same2 ++ skipn (length same2) (pre ++ same)) by (rewrite E at 1; symmetry; apply firstn_skipn). split; [exact E2|].
        rewrite (app_assoc pre same), E2, <- app_assoc in Q3. now apply app_inv_head in Q3. }
      destruct X as (last & X1 & ->). pose proof (f_equal (@count str) X1) as XC. rewrite !count_app in XC.
      specialize (IH _ _ _ _ M1 N2 last R1). replace (s + count same - count last) with (s - count pre + count same2) in IH by lia.
      rewrite (IH L1), !app_assoc. now rewrite X1.
Qed.
Lemma all_chosen_none cs : forall fs, length fs = length cs -> (all_chosen fs cs = [] <-> Forall2 (fun (f : bool) c => (if f then SpecNormal.old_lines c else SpecNormal.new_lines c) = []) fs cs).
Proof.
  induction cs as [|c cs IH]; intros [|f fs] L; try discriminate; [split; [constructor|reflexivity]|]. cbn [all_chosen].
  split.
  - intros E. apply app_eq_nil in E as [E1 E2]. constructor; [exact E1|]. apply IH; [now injection L|exact E2].
  - intros F. inversion_clear F as [|? ? ? ? F1 F2]. unfold chosen. rewrite F1. cbn [app]. apply IH; [now injection L|exact F2].
Qed.
Lemma nwritten_flags s fs A cs R : nwritten s fs A cs R -> length fs = length cs.
Proof. induction 1; cbn; congruence. Qed.
(** What is written is what is wanted exactly when nothing has to be written for any command. *)
Lemma normal_right s fs A cs R W : nwritten s fs A cs R -> nmixed s fs A cs W ->
  (concat R = concat W <-> Forall2 (fun (f : bool) c => (if f then SpecNormal.old_lines c else SpecNormal.new_lines c) = []) fs cs).
Proof.
  intros L M. rewrite <- (all_chosen_none _ _ (nwritten_flags _ _ _ _ _ L)). split.
  - intros E. pose proof (nwritten_size _ _ _ _ _ L) as S1. pose proof (nmixed_size _ _ _ _ _ M) as S2. rewrite E in S1. unfold str, chr in *.
    destruct (all_chosen fs cs); [reflexivity|]. cbn [length] in S2. lia.
  - intros N. f_equal. apply (nothing_chosen cs s fs A W M N []). change (count (@nil str)) with 0. rewrite Z.sub_0_r. exact L.
Qed.
Lemma context_wrong us s fs A R W : us <> [] -> Forall chunk_ok us -> cmixed (fun l => l) s fs A us R -> cmixed ended s fs A us W -> concat R <> concat W.
Proof.
  intros NE OK M1 M2 E.
  assert (P : (0 < length (pick fs (concat (map ch_segs us))))%nat).
  { destruct us as [|u us]; [congruence|]. inversion_clear OK as [|? ? O1 O2]. inversion M1 as [|? ? ? ? ? f1 f2 ? HA HL]. subst. cbn [map concat]. now apply chunk_pick. }
  pose proof (cmixed_size (fun l => l) 0 _ _ _ _ _ M1 ltac:(intros; lia)) as S1.
  pose proof (cmixed_size ended 1 _ _ _ _ _ M2 ltac:(intros; rewrite ended_size; lia)) as S2. rewrite E in S1. unfold str, chr in *. lia.
Qed.
