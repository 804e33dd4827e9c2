(** Proofs about what a save writes. *)
From Verif Require Import Base QtStr Diff Save SpecHistory SpecPatch SpecParse SpecBlend PHistory PParse PEditLines PUnifiedDoc PBlend.
Local Open Scope Z_scope.

Definition similar (d d' : difference) : Prop := exists t a u, d' = restate d t a u.
Definition alike (p q : filled) : Prop :=
  fst p = fst q /\ Forall2 (fun d d' => similar d d' /\ (is_context d = true -> d' = d)) (snd p) (snd q).
Lemma similar_refl d : similar d d. Proof. exists (d_track d), (d_applied d), (d_unsaved d). now destruct d. Qed.
Lemma similar_context d d' : similar d d' -> is_context d' = is_context d.
Proof. intros (t & a & u & ->). reflexivity. Qed.
Lemma similar_trans a b c : similar a b -> similar b c -> similar a c.
Proof. intros (t & x & u & ->) (t' & x' & u' & ->). exists t', x', u'. reflexivity. Qed.
Lemma Forall2_nth_l {A B} (R : A -> B -> Prop) l k : Forall2 R l k -> forall i x, nth_error l i = Some x -> exists y, nth_error k i = Some y /\ R x y.
Proof. induction 1; intros [|i] z E; cbn in *; try discriminate; [injection E as <-; eauto|eauto]. Qed.
Lemma combine_nth {A B} : forall (l : list A) (k : list B) i x y, nth_error (combine l k) i = Some (x, y) -> nth_error l i = Some x /\ nth_error k i = Some y.
Proof. induction l as [|a l IH]; intros [|b k] [|i] x y; cbn; try discriminate; [intros E; injection E; now intros -> ->|apply IH]. Qed.
Lemma deref_listed st hs : resolved st hs -> deref_all st (concat (map listed_of hs)) = Ok (filter (fun d => negb (is_context d)) (all_diffs hs)).
Proof.
  unfold all_diffs. induction 1 as [|[h ds] hs R _ IH]; [reflexivity|]. cbn [map concat snd fst] in *. rewrite deref_all_app, IH, filter_app.
  assert (E : deref_all st (listed_of (h, ds)) = Ok (filter (fun d => negb (is_context d)) ds)).
  { unfold listed_of. cbn [fst snd]. clear IH. revert ds R. induction (h_diffs h) as [|i l IH]; intros ds R.
    - cbn in R. injection R as <-. reflexivity.
    - cbn [deref_all] in R. unfold deref in R at 1. destruct (nth_error st i) as [d|] eqn:N; [|discriminate]. cbn [bind] in R.
      destruct (deref_all st l) as [ds'| |] eqn:D; try discriminate. cbn [bind] in R. injection R as <-.
      cbn [combine filter snd]. destruct (is_context d); cbn [negb map fst]; [now apply IH|].
      cbn [deref_all]. unfold deref at 1. rewrite N. cbn [bind]. now rewrite (IH ds' eq_refl). }
  rewrite E. reflexivity.
Qed.
Lemma listed_context st hs i d : resolved st hs -> In i (concat (map listed_of hs)) -> nth_error st i = Some d -> is_context d = false.
Proof.
  intros R I N. apply in_concat in I as (l & Hl & I). apply in_map_iff in Hl as ([h ds] & <- & Hq).
  unfold resolved in R. rewrite Forall_forall in R. specialize (R _ Hq). cbn [fst snd] in R.
  unfold listed_of in I. cbn [fst snd] in I. apply in_map_iff in I as ([i' d'] & EI & I). cbn in EI. subst i'.
  apply filter_In in I as [I F]. cbn in F. apply In_nth_error in I as [k K]. apply combine_nth in K as [K1 K2].
  destruct (deref_all_ok _ _ _ R) as [_ H]. destruct (H k i K1) as (x & X1 & X2). rewrite X1 in N. injection N as <-. rewrite K2 in X2. injection X2 as <-. now destruct (is_context d').
Qed.
Lemma alike_listed p q : length (h_diffs (fst p)) = length (snd p) -> alike p q -> listed_of q = listed_of p.
Proof.
  intros _ [E F]. unfold listed_of. rewrite <- E. generalize (h_diffs (fst p)). induction F as [|d d' ds ds' [S _] F IH]; intros [|i l]; try reflexivity.
  cbn [combine filter snd]. rewrite (similar_context _ _ S). destruct (is_context d); cbn [negb map fst]; now rewrite IH.
Qed.
Lemma links_rest m0 m hs l0 l1 : links m0 hs -> same_rest m0 m -> listed m0 = Ok l0 -> listed m = Ok l1 ->
  Forall2 similar l0 l1 -> exists hs', links m hs' /\ Forall2 alike hs hs'.
Proof.
  intros [L1 L2 L3 L4 L5 L6] SR E0 E1 F. destruct SR as (_ & _ & _ & _ & _ & _ & _ & _ & _ & _ & SH & SD & _ & SL & SO).
  assert (P : forall i d, nth_error (dm_store m0) i = Some d -> exists d', nth_error (dm_store m) i = Some d' /\ similar d d' /\ (is_context d = true -> d' = d)).
  { intros i d N. destruct (in_dec Nat.eq_dec i (dm_diffs m0)) as [I|I].
    - pose proof I as I'. apply In_nth_error in I as [k K]. unfold listed in E0, E1. rewrite SD in E1.
      destruct (deref_all_ok _ _ _ E0) as [LE0 H0]. destruct (deref_all_ok _ _ _ E1) as [LE1 H1].
      destruct (H0 k i K) as (x & Y & X). rewrite N in Y. injection Y as <-.
      destruct (Forall2_nth_l _ _ _ F k d X) as (d' & D1 & D2). destruct (H1 k i K) as (y & Y1 & Y2). rewrite D1 in Y2. injection Y2 as <-.
      exists d'. split; [exact Y1|]. split; [exact D2|].
      intros C. rewrite L5 in I'. rewrite (listed_context _ _ _ _ L2 I' N) in C. discriminate.
    - exists d. rewrite SO by assumption. auto using similar_refl. }
  assert (H : exists hs', resolved (dm_store m) hs' /\ Forall2 alike hs hs').
  { clear -L2 P. induction L2 as [|[h ds] hs R _ IH]; [exists []; split; constructor|]. destruct IH as (hs' & R' & A').
    cbn [fst snd] in R. assert (D : exists ds', deref_all (dm_store m) (h_diffs h) = Ok ds' /\ Forall2 (fun d d' => similar d d' /\ (is_context d = true -> d' = d)) ds ds').
    { clear A' R' hs'. revert ds R. induction (h_diffs h) as [|i l IH]; intros ds R.
      - cbn in R. injection R as <-. exists []. split; [reflexivity|constructor].
      - destruct (deref_all_cons _ _ _ _ R) as (d & ds0 & -> & N & R0). destruct (P i d N) as (d' & N' & S & C).
        destruct (IH ds0 R0) as (ds' & D1 & D2). exists (d' :: ds'). split; [|constructor; auto].
        cbn [deref_all]. unfold deref. rewrite N'. cbn [bind]. now rewrite D1. }
    destruct D as (ds' & D1 & D2). exists ((h, ds') :: hs'). split; constructor; auto. split; auto. }
  destruct H as (hs' & R' & A'). exists hs'. split; [|exact A'].
  assert (M : map fst hs' = map fst hs) by (clear -A'; induction A' as [|p q ? ? [E _] _ IH]; [reflexivity|cbn; now rewrite IH, E]).
  assert (LI : concat (map listed_of hs') = concat (map listed_of hs)).
  { clear -A' L2. induction A' as [|p q l l' A _ IH]; [reflexivity|]. inversion_clear L2 as [|? ? R1 R2]. cbn. rewrite IH by exact R2. f_equal.
    apply alike_listed; [|exact A]. destruct (deref_all_ok _ _ _ R1) as [LE _]. now symmetry. }
  split.
  - now rewrite SH, L1, M.
  - exact R'.
  - rewrite SD, L5, <- LI. now apply deref_listed.
  - now rewrite SD.
  - now rewrite SD, L5, LI.
  - rewrite <- (map_map fst h_diffs), M, map_map. exact L6.
Qed.

Lemma saved_lines_kept st hs : resolved st hs -> saved_lines st (map fst hs) = Ok (concat (map kept (all_diffs hs))).
Proof.
  unfold all_diffs. induction 1 as [|[h ds] hs R _ IH]; [reflexivity|]. cbn [map fst saved_lines snd] in *. rewrite R. cbn [bind].
  rewrite IH. cbn [bind concat map snd]. now rewrite map_app, concat_app.
Qed.
(** Context lines are the same on both sides and cannot be applied. *)
Definition plain (d : difference) : Prop :=
  is_context d = true -> d_applied d = false /\ lines_of (d_slines d) = lines_of (d_dlines d).
Lemma choose_kept ds : Forall plain ds -> choose (map d_applied (filter (fun d => negb (is_context d)) ds)) ds = concat (map kept ds).
Proof.
  induction 1 as [|d ds P _ IH]; [reflexivity|]. cbn [filter choose map concat]. unfold plain in P.
  destruct (is_context d) eqn:C; cbn [negb map]; rewrite IH; [|reflexivity]. unfold kept at 2. now destruct (P eq_refl) as [-> _].
Qed.
Lemma choose_none ds : Forall plain ds -> forall fs, length fs = length (filter (fun d => negb (is_context d)) ds) ->
  (forall f, In f fs -> f = false) -> choose fs ds = new_lines ds.
Proof.
  induction 1 as [|d ds P _ IH]; intros fs L A; [reflexivity|]. cbn [filter choose] in *. rewrite new_cons.
  destruct (is_context d); cbn [negb length] in *; [now rewrite IH|]. destruct fs as [|f fs]; [discriminate|].
  rewrite (A f (or_introl eq_refl)), IH; [reflexivity|now injection L|intros; apply A; now right].
Qed.
Lemma choose_all ds : Forall plain ds -> forall fs, length fs = length (filter (fun d => negb (is_context d)) ds) ->
  (forall f, In f fs -> f = true) -> choose fs ds = old_lines ds.
Proof.
  induction 1 as [|d ds P _ IH]; intros fs L A; [reflexivity|]. cbn [filter choose] in *. rewrite old_cons. unfold plain in P.
  destruct (is_context d); cbn [negb length] in *; [destruct (P eq_refl) as [_ <-]; now rewrite IH|]. destruct fs as [|f fs]; [discriminate|].
  rewrite (A f (or_introl eq_refl)), IH; [reflexivity|now injection L|intros; apply A; now right].
Qed.
Lemma choose_alike fs : forall ds ds', Forall2 similar ds ds' -> choose fs ds' = choose fs ds.
Proof.
  intros ds ds' F. revert fs. induction F as [|d d' ds ds' S F IH]; intros fs; [reflexivity|]. cbn [choose].
  rewrite (similar_context _ _ S). destruct S as (t & a & u & ->). destruct (is_context d); cbn; [now rewrite IH|]. destruct fs; [reflexivity|]. now rewrite IH.
Qed.
Lemma similar_lines ds ds' : Forall2 similar ds ds' -> old_lines ds' = old_lines ds /\ new_lines ds' = new_lines ds /\
  forall a b, standing a b ds -> standing a b ds'.
Proof.
  induction 1 as [|d d' ds ds' S F (IH1 & IH2 & IH3)]; [auto|]. destruct S as (t & a & u & ->). rewrite !old_cons, !new_cons. cbn.
  rewrite IH1, IH2. repeat split; try tauto. apply IH3. tauto.
Qed.
Lemma alike_similar hs hs' : Forall2 alike hs hs' -> Forall2 similar (all_diffs hs) (all_diffs hs').
Proof.
  unfold all_diffs. induction 1 as [|p q l l' [_ A] _ IH]; [constructor|]. cbn. apply Forall2_app; [|exact IH].
  clear -A. induction A as [|? ? ? ? [S _] _ IH]; constructor; auto.
Qed.
Lemma turns_alike : forall s t A B hs, turns s t A B hs -> forall hs', Forall2 alike hs hs' -> turns s t A B hs'.
Proof.
  induction 1 as [s t same|s t same A B h ds hs E1 E2 ST T IH]; intros hs' F.
  - inversion_clear F. constructor.
  - destruct hs' as [|[h' ds'] hs'']; [inversion F|]. assert (X : alike (h, ds) (h', ds') /\ Forall2 alike hs hs'') by (inversion F; auto).
    destruct X as [[EH A0] F']. cbn [fst snd] in EH, A0. subst h'. clear F.
    assert (A1 : Forall2 similar ds ds') by (clear -A0; induction A0 as [|? ? ? ? [S _] _ IH]; constructor; auto).
    destruct (similar_lines _ _ A1) as (O & N & SD). rewrite <- O, <- N. constructor; [exact E1|exact E2|auto|].
    rewrite O, N. auto.
Qed.
Lemma plain_alike hs hs' : Forall2 alike hs hs' -> Forall plain (all_diffs hs) -> Forall plain (all_diffs hs').
Proof.
  unfold all_diffs. induction 1 as [|p q l l' [_ A] _ IH]; [auto|]. cbn. rewrite !Forall_app. intros [P1 P2]. split; [|auto].
  clear -A P1. induction A as [|d d' ds ds' [S C] _ IH]; [constructor|]. inversion_clear P1 as [|? ? P Q]. constructor; [|auto].
  intros X. rewrite (similar_context _ _ S) in X. rewrite (C X). exact (P X).
Qed.
Lemma expect_similar ds : forall sh sh' fs ss fs' ss', length fs = length ds -> length ss = length ds -> length fs' = length ds -> length ss' = length ds ->
  Forall2 similar (expect sh ds fs ss) (expect sh' ds fs' ss').
Proof.
  induction ds as [|d ds IH]; intros sh sh' [|f fs] [|s ss] [|f' fs'] [|s' ss'] A B C D; try discriminate; [constructor|]. cbn in *.
  constructor; [|apply IH; lia]. exists (d_src d + sh'), f', (xorb f' s'). reflexivity.
Qed.
Lemma expect_applied ds : forall sh fs ss, length fs = length ds -> length ss = length ds -> map d_applied (expect sh ds fs ss) = fs.
Proof.
  induction ds as [|d ds IH]; intros sh [|f fs] [|s ss] A B; try discriminate; [reflexivity|]. cbn in *. rewrite IH by lia. reflexivity.
Qed.

Lemma choose_app f1 f2 : forall a b, length f1 = length (filter (fun d => negb (is_context d)) a) ->
  choose (f1 ++ f2) (a ++ b) = choose f1 a ++ choose f2 b.
Proof.
  intros a. revert f1. induction a as [|d a IH]; intros f1 b L; cbn in L.
  - destruct f1; [reflexivity|discriminate].
  - cbn [app choose]. destruct (is_context d); cbn [negb] in L.
    + rewrite IH by assumption. now rewrite app_assoc.
    + destruct f1 as [|f f1]; [discriminate|]. cbn [app]. rewrite IH by (cbn in L; lia). now rewrite app_assoc.
Qed.
Lemma app_same_length {A} (a b c d : list A) : length a = length c -> a ++ b = c ++ d -> a = c /\ b = d.
Proof. revert c. induction a as [|x a IH]; intros [|y c] L E; try discriminate; [auto|]. cbn in *. injection E as -> E. destruct (IH c ltac:(lia) E) as [-> ->]. auto. Qed.
Lemma partly_chosen : forall L hs out, filled_in L hs out -> forall s t s0 t0 A0 B0 pre fs R, gapless s t out -> turns s0 t0 A0 B0 hs ->
  A0 = pre ++ L -> s = s0 + count pre -> partly s0 fs A0 hs R -> pre ++ choose fs (all_diffs out) = R.
Proof.
  unfold all_diffs. induction 1 as [|[h ds] sk lines hs out SK FI IH|p lines hs out O C FI IH]; intros s t s0 t0 A0 B0 pre fs R G T EA ES P.
  - inversion P; subst. cbn. now rewrite ?app_nil_r in *.
  - cbn [map concat snd] in *. destruct G as (G1 & G2 & G3 & G4).
    inversion T as [|? ? same A B h' ds' hs' E1 E2 E3 T' X1 X2 X3 X4]. subst h' ds' hs'.
    inversion P as [|? same' A' h' ds' hs' f1 f2 R' P1 P2 P3 Y1 Y2 Y3 Y4 Y5]. subst h' ds' hs'.
    assert (LS : length same = length pre) by (unfold count in *; lia).
    assert (LS' : length same' = length same) by (unfold count in *; lia).
    assert (W : same = pre /\ old_lines ds ++ A = sk ++ lines).
    { apply app_same_length; [exact LS|]. congruence. }
    destruct W as [-> W]. rewrite <- X3 in Y3. apply app_same_length in Y3 as [-> Y3]; [|exact LS'].
    apply app_inv_head in Y3. subst A'.
    assert (LK : length sk = length (old_lines ds)).
    { destruct SK as [SK|[SK ->]]; [exact SK|]. rewrite app_nil_r in W. rewrite <- W, app_length in SK. unfold str, chr in *. lia. }
    apply app_same_length in W as [W1 W2]; [|now symmetry]. subst sk lines.
    rewrite choose_app by exact P2. f_equal. f_equal.
    apply (IH (s + count (old_lines ds)) (t + count (new_lines ds)) (h_src h + count (old_lines ds)) (h_dst h + count (new_lines ds)) A B [] f2 R'); auto.
    rewrite G1. unfold count. cbn. lia.
  - destruct p as [h ds]. destruct C as (d & C1 & _ & _ & _ & C2 & _ & C3 & _). cbn [snd fst] in *. subst ds.
    cbn [map concat snd app choose]. unfold is_context. rewrite C2. destruct G as (_ & _ & _ & G4).
    rewrite old_one in *. rewrite <- C3, app_assoc.
    eapply IH; [exact G4|exact T| |rewrite ES, count_app; lia|exact P]. now rewrite <- app_assoc.
Qed.
Lemma partly_exists : forall s t A B hs, turns s t A B hs -> forall fs, length fs = length (filter (fun d => negb (is_context d)) (all_diffs hs)) ->
  exists R, partly s fs A hs R.
Proof.
  unfold all_diffs. induction 1 as [s t same|s t same A B h ds hs E1 E2 ST T IH]; intros fs L.
  - destruct fs; [|discriminate]. eexists. constructor.
  - cbn [map concat snd] in L. rewrite filter_app, app_length in L. set (n := length (filter _ ds)) in L.
    assert (L1 : length (firstn n fs) = n) by (rewrite firstn_length; lia).
    destruct (IH (skipn n fs)) as [R HR]; [rewrite skipn_length; lia|].
    exists (same ++ choose (firstn n fs) ds ++ R). rewrite <- (firstn_skipn n fs) at 1. constructor; assumption.
Qed.
Lemma partly_alike : forall s fs A hs R, partly s fs A hs R -> forall hs', Forall2 alike hs hs' -> partly s fs A hs' R.
Proof.
  induction 1 as [s same|s same A h ds hs f1 f2 R E1 E2 T IH]; intros hs' F.
  - inversion_clear F. constructor.
  - destruct hs' as [|[h' ds'] hs'']; [inversion F|]. assert (X : alike (h, ds) (h', ds') /\ Forall2 alike hs hs'') by (inversion F; auto).
    destruct X as [[EH A0] F']. cbn [fst snd] in EH, A0. subst h'. clear F.
    assert (A1 : Forall2 similar ds ds') by (clear -A0; induction A0 as [|? ? ? ? [S _] _ IH]; constructor; auto).
    destruct (similar_lines _ _ A1) as (O & N & SD). rewrite <- O, <- (choose_alike f1 _ _ A1). constructor; [exact E1| |].
    + rewrite E2. clear -A1. induction A1 as [|d d' ds ds' S _ IH]; [reflexivity|]. cbn. rewrite (similar_context _ _ S). destruct (negb (is_context d)); cbn; now rewrite IH.
    + rewrite O. auto.
Qed.
