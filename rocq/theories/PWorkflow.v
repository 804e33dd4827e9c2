(** Lemmas for C55: from printed hunks to the hunks of a model. *)
From Coq Require Import String Sorted Permutation.
From Verif Require Import Base QtStr Diff Save Parser SpecHistory SpecPatch SpecParse SpecText SpecUnified Blend SpecBlend SpecWorkflow PHistory PEditLines PUnifiedDoc PBlend PSave.
Local Open Scope Z_scope.

Lemma seg_lines ss ds : Forall2 seg_is ss ds -> old_lines ds = concat (map src_lines ss) /\ new_lines ds = concat (map dst_lines ss).
Proof.
  induction 1 as [|s d ss ds (A & B & _) F [IH1 IH2]]; [split; reflexivity|].
  rewrite old_cons, new_cons. cbn [map concat]. now rewrite A, B, IH1, IH2.
Qed.
Lemma seg_context s d : seg_is s d -> is_context d = negb (is_change s).
Proof. intros (_ & _ & T). unfold is_context. rewrite T. destruct s as [ls|[|x r] [|y a]]; reflexivity. Qed.
Lemma seg_changes ss ds : Forall2 seg_is ss ds -> length (filter (fun d => negb (is_context d)) ds) = length (filter is_change ss).
Proof.
  induction 1 as [|s d ss ds H F IH]; [reflexivity|]. cbn. rewrite (seg_context _ _ H), negb_involutive. destruct (is_change s); cbn; auto.
Qed.
Lemma choose_pick ss ds : Forall2 seg_is ss ds -> forall fs, choose fs ds = pick fs ss.
Proof.
  induction 1 as [|s d ss ds H F IH]; intros fs; [reflexivity|]. cbn [choose pick]. rewrite (seg_context _ _ H).
  destruct H as (A & B & _). destruct s as [ls|r a]; cbn [is_change negb src_lines dst_lines] in *.
  - now rewrite B, IH.
  - destruct fs as [|f fs]; [reflexivity|]. now rewrite A, B, IH.
Qed.
Lemma contiguous_standing ds : forall a b, contiguous a b ds -> standing a b ds.
Proof. induction ds as [|d ds IH]; intros a b; cbn; [auto|]. intros (A & B & _ & C). auto. Qed.
Lemma patches_turn f s t A B us : patches f s t A B us -> forall hs, Forall2 hunk_is us hs -> turns s t A B hs.
Proof.
  induction 1 as [f s t same|f s t same A B u us _ HA HB P IH]; intros hs F.
  - inversion_clear F. constructor.
  - inversion F as [|? p ? hs' H F' E1 E2]. subst. destruct p as [h ds]. destruct H as (A1 & B1 & _ & _ & SG & CO & _). cbn [fst snd] in *.
    destruct (seg_lines _ _ SG) as [L1 L2]. rewrite <- L1, <- L2. constructor; [congruence|congruence| |].
    + rewrite A1, B1. now apply contiguous_standing.
    + rewrite A1, B1, L1, L2. apply IH. exact F'.
Qed.
Lemma partly_in_part s fs A hs R : partly s fs A hs R -> forall us, Forall2 hunk_is us hs -> in_part s fs A us R.
Proof.
  induction 1 as [s same|s same A h ds hs f1 f2 R HA HL P IH]; intros us F.
  - inversion_clear F. constructor.
  - inversion F as [|u ? us' ? H F' E1 E2]. subst. destruct H as (A1 & B1 & _ & _ & SG & CO & _). cbn [fst snd] in *.
    destruct (seg_lines _ _ SG) as [L1 L2]. rewrite L1, (choose_pick _ _ SG). constructor; [congruence| |].
    + unfold changes_in. now rewrite <- (seg_changes _ _ SG).
    + unfold src_count. rewrite <- A1, <- L1. apply IH. exact F'.
Qed.
Lemma strongly_increasing l : StronglySorted Z.lt l -> increasing l.
Proof.
  induction l as [|x l IH]; [intros _; exact I|]. intros S. inversion_clear S as [|? ? S1 S2]. destruct l as [|y l]; [exact I|].
  split; [now inversion S2|auto].
Qed.
Lemma count_nonneg {A} (l : list A) : 0 <= count l. Proof. unfold count. lia. Qed.
Lemma count_pos {A} (l : list A) : l <> [] -> 0 < count l. Proof. unfold count. destruct l; [congruence|]. cbn [length]. lia. Qed.
Lemma hunk_order ss ds : Forall2 seg_is ss ds -> Forall seg_ok ss -> Sorted may_follow ss -> forall a b, contiguous a b ds ->
  let l := map d_dst (filter (fun d => negb (is_context d)) ds) in
  StronglySorted Z.lt l /\ Forall (fun z => b <= z <= b + count (new_lines ds)) l /\
  (match ss with Ctx _ :: _ => Forall (fun z => b < z) l | _ => True end).
Proof.
  induction 1 as [|s d ss ds H F IH]; intros OK SO a b CO.
  - cbn. repeat constructor.
  - inversion_clear OK as [|? ? OK1 OK2]. inversion_clear SO as [|? ? SO1 SO2]. destruct CO as (C1 & C2 & C3 & C4).
    destruct (IH OK2 SO1 _ _ C4) as (I1 & I2 & I3). clear IH. cbn [filter]. rewrite (seg_context _ _ H), negb_involutive.
    destruct H as (L1 & L2 & _). assert (E : count (d_dlines d) = count (dst_lines s)) by (rewrite <- L2; now rewrite count_lines).
    rewrite new_cons, count_app, count_lines. pose proof (count_nonneg (d_dlines d)) as P. pose proof (count_nonneg (new_lines ds)) as P2.
    destruct s as [ls|r x]; cbn [is_change map dst_lines src_lines] in *.
    + assert (LN : 0 < count ls) by (apply count_pos; intros ->; destruct OK1 as (_ & _ & N); apply N; split; reflexivity).
      split; [exact I1|]. split; (eapply Forall_impl; [|exact I2]); cbn; intros z Z; unfold str, chr in *; lia.
    + assert (ST : Forall (fun z => b < z) (map d_dst (filter (fun d => negb (is_context d)) ds))).
      { destruct x as [|y x].
        - destruct ss as [|s2 ss]; [inversion_clear F; constructor|]. inversion_clear SO2 as [|? ? M]. destruct s2 as [l2|r2 a2].
          + eapply Forall_impl; [|exact I3]. cbn. intros z. unfold str, chr in *. lia.
          + cbn in M. destruct M as [M _]. congruence.
        - assert (0 < count (y :: x)) by (apply count_pos; discriminate).
          eapply Forall_impl; [|exact I2]. cbn beta. intros z. unfold str, chr in *. lia. }
      split; [constructor; [exact I1|rewrite C2; exact ST]|]. split; [|exact I].
      constructor; [lia|]. eapply Forall_impl; [|exact I2]. cbn beta. intros z. lia.
Qed.
Lemma patches_order f s t A B us : patches f s t A B us -> forall hs, Forall2 hunk_is us hs -> Forall hunk_ok us ->
  let l := map d_dst (filter (fun d => negb (is_context d)) (all_diffs hs)) in
  StronglySorted Z.lt l /\ Forall (fun z => (if f then t else t + 1) <= z) l.
Proof.
  induction 1 as [f s t same|f s t same A B u us HF HA HB P IH]; intros hs F OK.
  - inversion_clear F. split; constructor.
  - inversion F as [|? p ? hs' H F' E1 E2]. subst. inversion_clear OK as [|? ? OK1 OK2]. destruct p as [h ds]. destruct H as (A1 & B1 & _ & _ & SG & CO & _). cbn [fst snd] in *.
    destruct OK1 as [_ _ _ _ _ O1 O2]. destruct (hunk_order _ _ SG O1 O2 _ _ CO) as (I1 & I2 & _). destruct (IH _ F' OK2) as (J1 & J2).
    unfold all_diffs in *. cbn [map concat snd]. rewrite filter_app, map_app.
    set (l1 := map d_dst (filter _ ds)) in *. set (l2 := map d_dst (filter _ (concat (map snd hs')))) in *.
    destruct (seg_lines _ _ SG) as [_ L2]. unfold dst_count in J2. rewrite <- L2 in J2. pose proof (count_nonneg (new_lines ds)) as PP. pose proof (count_nonneg same) as P1.
    assert (TB : (if f then t else t + 1) <= uh_b u).
    { destruct f; [lia|]. specialize (HF eq_refl). pose proof (count_pos _ HF). lia. }
    split.
    + clear -I1 I2 J1 J2. induction l1 as [|z l IHl]; [exact J1|]. inversion_clear I1 as [|? ? S1 S2]. inversion_clear I2 as [|? ? Z1 Z2]. cbn. constructor; [auto|].
      apply Forall_app. split; [exact S2|]. eapply Forall_impl; [|exact J2]. cbn beta. intros w. unfold str, chr in *. lia.
    + apply Forall_app. split; [eapply Forall_impl; [|exact I2]|eapply Forall_impl; [|exact J2]]; cbn beta; intros z; unfold str, chr in *; lia.
Qed.
Lemma contiguous_track ds : forall a b, contiguous a b ds -> Forall (fun d => d_track d = d_src d) ds.
Proof. induction ds as [|d ds IH]; intros a b; cbn; [constructor|]. intros (A & B & C & D). constructor; [congruence|eauto]. Qed.
Lemma patch_fresh p m : patch_ok p -> patch_is p m -> forall A B, patches true 1 1 A B (up_hunks p) ->
  exists hs, links m hs /\ context_same hs /\ Forall2 hunk_is (up_hunks p) hs /\ turns 1 1 A B hs /\
    fresh m (filter (fun d => negb (is_context d)) (all_diffs hs)) /\
    length (filter (fun d => negb (is_context d)) (all_diffs hs)) = all_changes (up_hunks p).
Proof.
  intros OK (_ & hs & [L (S1 & S2 & S3 & S4)] & F) A B P. exists hs. split; [exact L|].
  destruct (patches_order _ _ _ _ _ _ P _ F (po_hunks p OK)) as (O1 & _).
  assert (PR : Forall (fun d => pristine d /\ d_track d = d_src d /\ (is_context d = true -> lines_of (d_slines d) = lines_of (d_dlines d))) (all_diffs hs)).
  { clear -F. unfold all_diffs. induction F as [|u q us hs (_ & _ & _ & _ & SG & CO & PR) F IH]; [constructor|]. cbn [map concat]. apply Forall_app. split; [|exact IH].
    pose proof (contiguous_track _ _ _ CO) as T. clear -T PR SG. induction SG as [|s d ss ds S SG IH]; [constructor|]. inversion_clear PR. inversion_clear T. constructor; [|auto].
    split; [assumption|]. split; [assumption|]. rewrite (seg_context _ _ S). destruct S as (E1 & E2 & _), s; [|discriminate]. rewrite E1, E2. reflexivity. }
  split; [|split; [exact F|split; [eapply patches_turn; eauto|split]]].
  - unfold context_same. eapply Forall_impl; [|exact PR]. cbn. intros d ((Q & _) & _ & Q2) C. auto.
  - destruct L as [L1 L2 L3 L4 L5 L6]. split; auto.
    + intros h I i J. rewrite L1 in I. apply in_map_iff in I as (q & <- & Q). rewrite Forall_forall in L2. eapply deref_all_lt; [exact (L2 q Q)|exact J].
    + intros d I. apply filter_In in I as [I C]. rewrite Forall_forall in PR. destruct (PR d I) as ((Q1 & Q2 & Q3 & Q4) & Q5 & _). rewrite C in Q4. auto.
    + now apply strongly_increasing.
  - unfold all_changes, all_diffs. clear -F. induction F as [|u q us hs (_ & _ & _ & _ & SG & _) F IH]; [reflexivity|]. cbn [map concat]. rewrite !filter_app, !app_length, IH, (seg_changes _ _ SG). reflexivity.
Qed.
