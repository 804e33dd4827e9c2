(** C70: tracking line numbers and the saved file. *)
From Coq Require Import ZifyBool ZifyNat ZifyN String.
From Verif Require Import Base QtStr Lev Diff Save SpecText SpecInline PMarkLoop PropsEdited SpecHistory SpecPatch SpecParse SpecBlend Blend PHistory PPatch PropsHistory PEditLines PSave PropsBlend PropsEdit PropsUnified PAnyInput Parser PropsWorkflow PropsCalls.
Local Open Scope Z_scope.

(** Opened and blended: the first difference inserts a line, the second changes line 3. The first one is applied and the file is
    saved: it holds the source text but for the second difference, which is at line 3; its tracking number is 4. *)
Definition C70_opened : res dmodel :=
  opened ["--- a	1"; "+++ b	2"; "@@ -1,3 +1,4 @@"; "+0"; " 1"; " 2"; "-3"; "+x"]%string ["1"; "2"; "3"]%string.
Theorem C70_tracking_is_place_in_saved_file_refuted : exists m m' o ds d,
  C70_opened = Ok m /\ run m [ApplyDirect 0 true] = Ok m' /\ save_destination good m' = Ok o /\
  so_written o = Some (concat (map nl ["1"; "2"; "x"]%string)) /\
  listed m' = Ok ds /\ nth_error ds 1 = Some d /\ lines_of (d_dlines d) = [nl "x"] /\ d_applied d = false /\ d_track d = 4.
Proof.
  assert (match C70_opened with Ok m => match run m [ApplyDirect 0 true] with Ok m' =>
     match save_destination good m' with Ok o => so_written o = Some (concat (map nl ["1"; "2"; "x"]%string)) | _ => False end /\
     match listed m' with Ok ds => match nth_error ds 1 with Some d => lines_of (d_dlines d) = [nl "x"] /\ d_applied d = false /\ d_track d = 4 | None => False end | _ => False end
    | _ => False end | _ => False end) as H by (vm_compute; auto 6).
  destruct C70_opened as [m| |]; try contradiction. destruct (run m [ApplyDirect 0 true]) as [m'| |] eqn:E1; try contradiction. destruct H as [H1 H2].
  destruct (save_destination good m') as [o| |] eqn:E2; try contradiction. destruct (listed m') as [ds| |] eqn:E3; try contradiction.
  destruct (nth_error ds 1) as [d|] eqn:E4; try contradiction. destruct H2 as (H2 & H3 & H4).
  exists m, m', o, ds, d. auto 12.
Qed.
Print Assumptions C70_tracking_is_place_in_saved_file_refuted.

(** * Where a difference is in the saved file *)
Definition real (d : difference) : bool := negb (is_context d).
Definition side (f : bool) (d : difference) : list str := if f then lines_of (d_slines d) else lines_of (d_dlines d).
Lemma gained_app l1 l2 f1 f2 k : length f1 = length l1 ->
  gained (l1 ++ l2) (f1 ++ f2) (length l1 + k) = gained l1 f1 (length l1) + gained l2 f2 k.
Proof.
  revert f1. induction l1 as [|d l1 IH]; intros [|f f1] H; cbn in *; try discriminate; [reflexivity|]. rewrite IH by congruence. lia.
Qed.
Lemma gained_left l1 l2 f1 f2 k : length f1 = length l1 -> (k < length l1)%nat -> gained (l1 ++ l2) (f1 ++ f2) k = gained l1 f1 k.
Proof.
  revert f1 k. induction l1 as [|d l1 IH]; intros [|f f1] k H Hk; cbn in *; try discriminate; try lia. destruct k; [reflexivity|]. cbn. rewrite IH by (congruence || lia). reflexivity.
Qed.
Definition plain_d (d : difference) : Prop := is_context d = true -> d_applied d = false /\ lines_of (d_slines d) = lines_of (d_dlines d).
Lemma count_lines_eq a b : lines_of a = lines_of b -> count a = count b.
Proof. intros E. rewrite <- !count_lines. now rewrite E. Qed.
Lemma choose_count ds : forall fs, Forall plain_d ds -> length fs = length (filter real ds) ->
  count (choose fs ds) = count (new_lines ds) - gained (filter real ds) fs (length (filter real ds)).
Proof.
  induction ds as [|d ds IH]; intros fs HP HL; [destruct fs; reflexivity|]. inversion HP as [|? ? P1 P2]; subst.
  change (new_lines (d :: ds)) with (lines_of (d_dlines d) ++ new_lines ds). cbn [choose filter] in *. change (real d) with (negb (is_context d)) in *. destruct (is_context d) eqn:Ec; cbn [negb] in *.
  - rewrite !count_app, IH by assumption. lia.
  - destruct fs as [|f fs]; cbn [length] in HL; [discriminate|]. rewrite !count_app, IH by (assumption || congruence). cbn [length gained].
    destruct f; rewrite !count_lines; unfold dlc, slc, count; lia.
Qed.
Lemma choose_place ds : forall a b fs k d f, standing a b ds -> Forall plain_d ds -> length fs = length (filter real ds) ->
  nth_error (filter real ds) k = Some d -> nth_error fs k = Some f ->
  exists pre post, choose fs ds = pre ++ side f d ++ post /\ b + count pre = d_dst d - gained (filter real ds) fs k.
Proof.
  induction ds as [|x ds IH]; intros a b fs k d f ST HP HL HD HF; [destruct k; discriminate|]. inversion HP as [|? ? P1 P2]; subst.
  cbn [standing] in ST. destruct ST as (S1 & S2 & ST). cbn [filter choose] in *. change (real x) with (negb (is_context x)) in *. destruct (is_context x) eqn:Ec; cbn [negb] in *.
  - destruct (IH _ _ fs k d f ST P2 HL HD HF) as (pre & post & -> & E). exists (lines_of (d_dlines x) ++ pre), post. rewrite <- app_assoc. split; [reflexivity|].
    rewrite count_app, count_lines. lia.
  - destruct fs as [|g fs]; cbn [length] in HL; [discriminate|]. destruct k as [|k]; cbn [nth_error] in HD, HF.
    + injection HD as ->. injection HF as ->. exists [], (choose fs ds). split; [reflexivity|]. cbn. lia.
    + destruct (IH _ _ fs k d f ST P2 ltac:(congruence) HD HF) as (pre & post & -> & E). exists (side g x ++ pre), post. rewrite <- app_assoc. split; [reflexivity|].
      rewrite count_app. cbn [gained]. unfold side. destruct g; rewrite count_lines; unfold dlc, slc; unfold count in *; lia.
Qed.
Lemma app_eq_split {A} (a b c d : list A) : a ++ b = c ++ d -> length a = length c -> a = c /\ b = d.
Proof. revert c. induction a as [|x a IH]; intros [|y c] H L; cbn in *; try discriminate; [auto|]. injection H as -> H. injection L as L. destruct (IH c H L) as [-> ->]. auto. Qed.
Lemma place s t A B hs : turns s t A B hs -> forall fs R k d f, Forall plain_d (concat (map snd hs)) -> partly s fs A hs R ->
  nth_error (filter real (concat (map snd hs))) k = Some d -> nth_error fs k = Some f ->
  exists pre post, R = pre ++ side f d ++ post /\ t + count pre = d_dst d - gained (filter real (concat (map snd hs))) fs k.
Proof.
  induction 1 as [s t same | s t same A B h ds hs E1 E2 ST T IH]; intros fs R k d f HP HR HD HF; [destruct k; discriminate|].
  inversion HR as [|s0 same0 A0 h0 ds0 hs0 f1 f2 R0 Q1 Q2 Q3]; subst. 
  assert (same0 = same /\ old_lines ds ++ A0 = old_lines ds ++ A) as [-> EA].
  { apply app_eq_split; [assumption|]. unfold count in *. lia. }
  apply app_inv_head in EA. subst A0. cbn [map concat snd] in *. rewrite filter_app in *. apply Forall_app in HP as [P1 P2]. fold real in Q2.
  assert (length (filter real ds) = length f1) as Q2' by (symmetry; exact Q2).
  destruct (Nat.lt_ge_cases k (length (filter real ds))) as [L|L].
  - rewrite nth_error_app1 in HD by exact L. rewrite nth_error_app1 in HF by lia.
    destruct (choose_place ds _ _ f1 k d f ST P1 Q2 HD HF) as (pre & post & E & EC). exists (same ++ pre), (post ++ R0).
    rewrite E, <- !app_assoc. split; [reflexivity|]. rewrite gained_left by assumption. rewrite count_app. lia.
  - rewrite nth_error_app2 in HD by exact L. rewrite nth_error_app2 in HF by lia. rewrite <- Q2' in HF.
    destruct (IH f2 R0 _ d f P2 Q3 HD HF) as (pre & post & -> & EC). exists (same ++ choose f1 ds ++ pre), post. rewrite <- !app_assoc. split; [reflexivity|].
    replace k with (length (filter real ds) + (k - length (filter real ds)))%nat by lia. rewrite gained_app by (symmetry; exact Q2').
    rewrite !count_app, choose_count by assumption. lia.
Qed.

(** Any history of applying and saving, with the original file blended at any moment; the file is saved. A difference is in the
    saved file at the line that is its source line plus its destination line less its tracking line. *)
Theorem C70_place_in_saved_file m ds hs text A B ops1 ops2 s1 s2 e :
  fresh m ds -> links m hs -> context_same hs -> lines_of_text text A -> turns 1 1 A B hs ->
  abs_run (abs_init (length ds)) ops1 = Some s1 -> abs_run s1 ops2 = Some s2 ->
  exists m1 mb m2 o R ds2,
    run m ops1 = Ok m1 /\ blend_file m1 text = Ok mb /\ run mb ops2 = Ok m2 /\ listed m2 = Ok ds2 /\ save_destination e m2 = Ok o /\
    (save_succeeds e = true -> f_now s2 <> f_saved s2 -> so_written o = Some (concat R)) /\
    forall d, In d ds2 -> exists pre post,
      R = pre ++ (if d_applied d then lines_of (d_slines d) else lines_of (d_dlines d)) ++ post /\
      1 + count pre = d_src d + d_dst d - d_track d.
Proof.
  intros FR L CS LT T A1 A2.
  destruct (C37_saved_text_after_any_history m ds hs text A B ops1 ops2 s1 s2 e FR L CS LT T A1 A2) as (m1 & mb & m2 & o & R & X1 & X2 & X3 & X4 & X5 & X6 & _).
  assert (listed m2 = Ok (expect 0 ds (f_now s2) (f_saved s2)) /\ length (f_now s2) = length ds /\ length (f_saved s2) = length ds) as (V2 & M1 & M2).
  { pose proof (fresh_sim m ds FR) as S0. destruct FR as [HL HN HH HS HO HC HSel].
    assert (CN : forall d, In d ds -> d_connected d = true) by (intros d I; apply HS in I; tauto).
    destruct (run_sim m ds ops1 m _ s1 HO CN S0 A1) as (m1' & E1 & S1 & _). rewrite X1 in E1. injection E1 as <-.
    assert (EX0 : expect 0 ds (repeat false (length ds)) (repeat false (length ds)) = ds).
    { destruct S0 as [V _ _ _ _ _ _]. cbn in V. unfold listed in HL. rewrite HL in V. now injection V. }
    assert (L1 : exists hs1, links m1 hs1 /\ Forall2 alike hs hs1).
    { destruct S1 as [V R1 _ _ Len1 Len2 _]. eapply links_rest; [exact L|exact R1|exact HL|exact V|].
      rewrite <- EX0 at 1. apply expect_similar; rewrite ?repeat_length; auto. }
    destruct L1 as (hs1 & L1 & _). destruct (PBlend.blend_ok m1 hs1 text L1) as (mb' & out & more & EB & ES & LB & _ & SB & _ & _).
    rewrite X2 in EB. injection EB as <-.
    assert (SM : sim mb ds mb s1).
    { destruct S1 as [V R1 ND HU Len1 Len2 SL].
      unfold same_but_hunks in SB. assert (X : dm_diffs mb = dm_diffs m1 /\ dm_sel mb = dm_sel m1).
      { destruct mb, m1. cbn in SB. injection SB. cbn. intros; subst; auto. }
      destruct X as [Y1 Y2]. split; rewrite ?Y1, ?Y2; auto.
      - rewrite ES. now apply PUnifiedDoc.deref_all_grow.
      - unfold same_rest. repeat split; auto.
      - intros h IH i I. destruct LB as [B1 B2 _ _ _ _]. rewrite B1 in IH. apply in_map_iff in IH as (q & <- & Q).
        rewrite Forall_forall in B2. eapply PEditLines.deref_all_lt; [exact (B2 q Q)|exact I]. }
    destruct (run_sim mb ds ops2 mb s1 s2 HO CN SM A2) as (m2' & E2 & S2 & _). rewrite X3 in E2. injection E2 as <-.
    destruct S2 as [V2 _ _ _ M1 M2 _]. auto. }
  exists m1, mb, m2, o, R, (expect 0 ds (f_now s2) (f_saved s2)). repeat (split; [assumption|]). split; [intros SS DF; apply X6; assumption|].
  intros d Hd. apply In_nth_error in Hd as (k & Hk). pose proof (nth_some_lt _ _ _ Hk) as Lk. rewrite expect_length in Lk by assumption.
  destruct (nth_error_Some_lt ds k Lk) as (d0 & H0). destruct (nth_error_Some_lt (f_now s2) k ltac:(lia)) as (f & Hf). destruct (nth_error_Some_lt (f_saved s2) k ltac:(lia)) as (sv & Hsv).
  rewrite (expect_nth _ _ _ _ _ _ _ _ H0 Hf Hsv) in Hk. injection Hk as <-. cbn [restate d_applied d_slines d_dlines d_src d_dst d_track].
  assert (ds = filter real (concat (map snd hs))) as Eds.
  { destruct L as [_ _ Q _ _ _]. destruct FR as [HL _ _ _ _ _ _]. unfold listed in HL. rewrite Q in HL. injection HL as <-. reflexivity. }
  destruct (place 1 1 A B hs T (f_now s2) R k d0 f CS X5) as (pre & post & E & EC); [rewrite <- Eds; exact H0|exact Hf|].
  exists pre, post. split; [exact E|]. rewrite <- Eds in EC. lia.
Qed.
Print Assumptions C70_place_in_saved_file.
(** The hypotheses are those of C36_example and C37: a model read from a diff and the file it fits. *)
Example C70_example : exists m hs ds, links m hs /\ context_same hs /\ turns 1 1 sample_old sample_new hs /\ fresh m ds /\ length ds = 2%nat.
Proof. destruct C36_example as (m & hs & ds & A & B & C & D & _ & E). exists m, hs, ds. auto 6. Qed.
