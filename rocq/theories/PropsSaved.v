(** C56: what saving writes when the diff is in normal or context format, or does not belong to the file. *)
From Coq Require Import String Permutation.
From Verif Require Import Base QtStr Diff Save Parser SpecHistory SpecPatch SpecParse SpecText SpecUnified SpecNormal SpecContext Blend SpecBlend SpecWorkflow SpecSaved
  PHistory PropsText PEditLines PUnifiedDoc PBlend PSave PropsBlend PWorkflow PropsUnified PropsNormal PropsContext PropsWorkflow PAnyInput PSaved.
Local Open Scope Z_scope.

(** Any diff whose model is as the parser leaves it, any file, blended at any moment of any history: what is written. *)
Theorem C56_saved_for_any_file :
  forall m ds hs text A ops1 ops2 s1 s2 e,
  fresh m ds -> links m hs -> context_same hs -> lines_of_text text A ->
  abs_run (abs_init (length ds)) ops1 = Some s1 -> abs_run s1 ops2 = Some s2 ->
  exists m1 mb m2 o R,
    run m ops1 = Ok m1 /\ blend_file m1 text = Ok mb /\ run mb ops2 = Ok m2 /\ save_destination e m2 = Ok o /\
    laid 1 (f_now s2) A hs R /\ (forall R', laid 1 (f_now s2) A hs R' -> R' = R) /\
    (save_succeeds e = true -> f_now s2 <> f_saved s2 -> so_ret o = true /\ so_error o = false /\ so_written o = Some (concat R)) /\
    (f_now s2 = f_saved s2 -> so_ret o = true /\ so_error o = false /\ so_written o = None).
Proof.
  intros m ds hs text A ops1 ops2 s1 s2 e FR L CS LT A1 A2. apply C01_split_lossless in LT. subst A.
  pose proof (fresh_sim m ds FR) as S0. destruct FR as [HL HN HH HS HO HC HSel].
  assert (CN : forall d, In d ds -> d_connected d = true) by (intros d I; apply HS in I; tauto).
  destruct (run_sim m ds ops1 m _ s1 HO CN S0 A1) as (m1 & E1 & S1 & _).
  assert (EX0 : expect 0 ds (repeat false (length ds)) (repeat false (length ds)) = ds).
  { destruct S0 as [V _ _ _ _ _ _]. cbn in V. unfold listed in HL. rewrite HL in V. now injection V. }
  assert (L1 : exists hs1, links m1 hs1 /\ Forall2 alike hs hs1).
  { destruct S1 as [V R _ _ Len1 Len2 _]. eapply links_rest; [exact L|exact R|exact HL|exact V|].
    rewrite <- EX0 at 1. apply expect_similar; rewrite ?repeat_length; auto. }
  destruct L1 as (hs1 & L1 & AL1).
  destruct (blend_ok m1 hs1 text L1) as (mb & out & more & EB & ES & LB & FI & SB & BL & _).
  assert (SM : sim mb ds mb s1).
  { destruct S1 as [V R ND HU Len1 Len2 SL].
    unfold same_but_hunks in SB. assert (X : dm_diffs mb = dm_diffs m1 /\ dm_sel mb = dm_sel m1).
    { destruct mb, m1. cbn in SB. injection SB. cbn. intros; subst; auto. }
    destruct X as [X1 X2]. split; rewrite ?X1, ?X2; auto.
    - rewrite ES. now apply deref_all_grow.
    - unfold same_rest. repeat split; auto.
    - intros h IH i I. destruct LB as [B1 B2 _ _ _ _]. rewrite B1 in IH. apply in_map_iff in IH as (q & <- & Q).
      rewrite Forall_forall in B2. eapply PEditLines.deref_all_lt; [exact (B2 q Q)|exact I]. }
  destruct (run_sim mb ds ops2 mb s1 s2 HO CN SM A2) as (m2 & E2 & S2 & _).
  assert (L2 : exists out2, links m2 out2 /\ Forall2 alike out out2 /\ listed m2 = Ok (expect 0 ds (f_now s2) (f_saved s2)) /\
     length (f_now s2) = length ds /\ length (f_saved s2) = length ds).
  { destruct S2 as [V2 R2 _ _ M1 M2 _]. destruct SM as [V1 _ _ _ N1 N2 _].
    destruct (links_rest mb m2 out _ _ LB R2 V1 V2) as (out2 & Q1 & Q2); [apply expect_similar; auto|]. exists out2. auto. }
  destruct L2 as (out2 & L2 & AL2 & V2 & M1 & M2).
  assert (P1 : Forall plain (all_diffs hs1)) by (eapply plain_alike; eauto).
  assert (P2 : Forall plain (all_diffs out)).
  { clear -FI P1. unfold all_diffs in *. induction FI as [|p sk lines hs out _ _ IH|p lines hs out _ C _ IH]; [constructor| |]; cbn [map concat] in *.
    - apply Forall_app in P1 as [Q1 Q2]. apply Forall_app. auto.
    - apply Forall_app. split; [|auto]. destruct C as (d & -> & _ & _ & _ & _ & _ & C & PR). constructor; [|constructor]. intros _. split; [apply PR|exact C]. }
  assert (P3 : Forall plain (all_diffs out2)) by (eapply plain_alike; eauto).
  assert (AP : map d_applied (filter (fun d => negb (is_context d)) (all_diffs out2)) = f_now s2).
  { destruct L2 as [_ _ Q _ _ _]. unfold listed in V2. unfold all_diffs. rewrite Q in V2. injection V2 as ->. now apply expect_applied. }
  destruct (C37_save_outcome e m2 out2 L2) as (u & o & U & EO & O1 & O2 & O3).
  assert (LH : length (f_now s2) = changes_of (all_diffs hs1)).
  { unfold changes_of. assert (X : listed m1 = Ok (expect 0 ds (f_now s1) (f_saved s1)) /\ length (f_now s1) = length ds /\ length (f_saved s1) = length ds) by (destruct S1; auto).
    destruct X as (X & X1 & X2). destruct L1 as [_ _ Q _ _ _]. unfold listed in X. rewrite Q in X. injection X as X. unfold all_diffs. rewrite X, M1.
    rewrite <- X1. symmetry. assert (Y : map d_applied (expect 0 ds (f_now s1) (f_saved s1)) = f_now s1) by (apply expect_applied; auto). apply (f_equal (@length bool)) in Y. rewrite map_length in Y. exact Y. }
  set (R := choose (f_now s2) (all_diffs out)).
  assert (LA : laid 1 (f_now s2) (split_lines text) hs R).
  { eapply laid_alike; [|exact AL1]. exact (blend_laid m1 hs1 text mb out L1 EB LB (f_now s2) LH). }
  assert (ER2 : concat (map kept (all_diffs out2)) = R).
  { rewrite <- (choose_kept _ P3), AP, (choose_alike _ _ _ (alike_similar _ _ AL2)). reflexivity. }
  exists m1, mb, m2, o, R. split; [exact E1|]. split; [exact EB|]. split; [exact E2|]. split; [exact EO|]. split; [exact LA|].
  split; [intros R' LR; exact (laid_one _ _ _ _ _ _ LA LR)|].
  assert (US : u = false <-> f_now s2 = f_saved s2).
  { unfold has_unsaved in U. unfold listed in V2. rewrite V2 in U. cbn [bind] in U. injection U as U. rewrite <- U. split; [now apply unsaved_expect|]. intros <-. clear. generalize 0, (f_now s2).
    induction ds as [|d ds IH]; intros z [|f fs]; try reflexivity. cbn. rewrite xorb_nilpotent. apply IH. }
  split.
  - intros SS DF. destruct u.
    + destruct (O3 eq_refl SS) as (W1 & W2 & W & _). rewrite W. unfold all_diffs in ER2. now rewrite ER2.
    + exfalso. now apply DF, US.
  - intros EQ. apply US in EQ. rewrite (O1 EQ). auto.
Qed.
Print Assumptions C56_saved_for_any_file.

(** A context diff and the file it belongs to: what is written is the mixture of the chosen sides without the newlines of the lines of the hunks, and that is
    never the text that is wanted. *)
Theorem C56_context_saved_exactly :
  forall sort d p text A B, (forall l, Permutation (sort l) l) -> cdoc_ok false d -> In p (cd_files d) ->
  lines_of_text text A -> cpatches true 1 1 A B (cp_chunks p) ->
  exists o m, parse sort (split_lines (cdoc_text d)) = Ok o /\ po_malformed o = false /\ In m (the_models (po_models o)) /\ cpatch_is p m /\
  forall ops1 s1 ops2 s2 e, abs_run (abs_init (cchanges (cp_chunks p))) ops1 = Some s1 -> abs_run s1 ops2 = Some s2 ->
  exists m1 mb m2 out R,
    run m ops1 = Ok m1 /\ blend_file m1 text = Ok mb /\ run mb ops2 = Ok m2 /\ save_destination e m2 = Ok out /\
    cmixed (fun l => l) 1 (f_now s2) A (cp_chunks p) R /\
    (save_succeeds e = true -> f_now s2 <> f_saved s2 -> so_ret out = true /\ so_error out = false /\ so_written out = Some (concat R)) /\
    (f_now s2 = f_saved s2 -> so_ret out = true /\ so_error out = false /\ so_written out = None) /\
    (exists W, cmixed ended 1 (f_now s2) A (cp_chunks p) W) /\
    (forall W, cmixed ended 1 (f_now s2) A (cp_chunks p) W -> concat R <> concat W).
Proof.
  intros sort d p text A B HP OK IP LT PA. destruct (C24_context_documents_read_back sort d HP OK) as (o & E & MF & _ & ms & PM & F).
  assert (X : exists m, In m ms /\ cpatch_is p m).
  { clear -F IP. induction F as [|q m ps ms H F IH]; [destruct IP|]. destruct IP as [->|IP]; [exists m; split; [left; reflexivity|exact H]|].
    destruct (IH IP) as (m' & I & Q). exists m'. split; [right; exact I|exact Q]. }
  destruct X as (m & IM & PI). exists o, m. split; [exact E|]. split; [exact MF|]. split; [eapply Permutation_in; [symmetry; exact PM|exact IM]|]. split; [exact PI|].
  intros ops1 s1 ops2 s2 e A1 A2. assert (PO : cpatch_ok false p) by (pose proof (cd_files_ok _ d OK) as Q; rewrite Forall_forall in Q; auto).
  pose proof (cp_chunks_ok _ p PO) as CK. destruct (chunks_fresh p m CK (proj2 PI) A B PA) as (hs & L & CS & FH & FR & LN). rewrite <- LN in A1.
  destruct (C56_saved_for_any_file m _ hs text A ops1 ops2 s1 s2 e FR L CS LT A1 A2) as (m1 & mb & m2 & out & R & E1 & E2 & E3 & E4 & PR & _ & W & NW).
  pose proof (laid_context _ _ _ _ _ _ PA _ FH _ _ PR) as CM.
  exists m1, mb, m2, out, R. repeat (split; [assumption|]). split.
  - apply (cmixed_exists ended _ _ _ _ _ _ PA). rewrite <- LN. clear -CM FH. unfold all_diffs. revert FH CM. generalize 1, (f_now s2), A, R. revert hs.
    induction (cp_chunks p) as [|u us IH]; intros hs z fs A' R' FH CM; inversion FH as [|? q ? hs' H F' E1 E2]; subst; inversion CM as [|? ? ? ? ? f1 f2 ? HA HL CM']; subst; [reflexivity|].
    destruct H as (_ & _ & _ & _ & SG & _). cbn [map concat]. rewrite filter_app, !app_length, (IH _ _ _ _ _ F' CM'), HL, (seg_changes _ _ SG). reflexivity.
  - intros W' MW. exact (context_wrong _ _ _ _ _ _ (cp_some _ p PO) CK CM MW).
Qed.
Print Assumptions C56_context_saved_exactly.

(** A normal diff and the file it belongs to: what is written is the mixture of the chosen sides without newlines, with lines added after line n put before it;
    that is the text that is wanted exactly when there is nothing to write for any of the commands. *)
Theorem C56_normal_saved_exactly :
  forall sort cs text A B, (forall l, Permutation (sort l) l) -> cs <> [] -> Forall cmd_ok cs ->
  lines_of_text text A -> ncommands true 1 1 A B cs ->
  exists o m, parse sort (split_lines (concat (concat (map cmd_text cs)))) = Ok o /\ po_malformed o = false /\ po_models o = Some [m] /\ commands_are cs m /\
  forall ops1 s1 ops2 s2 e, abs_run (abs_init (length cs)) ops1 = Some s1 -> abs_run s1 ops2 = Some s2 ->
  exists m1 mb m2 out R,
    run m ops1 = Ok m1 /\ blend_file m1 text = Ok mb /\ run mb ops2 = Ok m2 /\ save_destination e m2 = Ok out /\
    nwritten 1 (f_now s2) A cs R /\
    (save_succeeds e = true -> f_now s2 <> f_saved s2 -> so_ret out = true /\ so_error out = false /\ so_written out = Some (concat R)) /\
    (f_now s2 = f_saved s2 -> so_ret out = true /\ so_error out = false /\ so_written out = None) /\
    (exists W, nmixed 1 (f_now s2) A cs W) /\
    (forall W, nmixed 1 (f_now s2) A cs W ->
       (concat R = concat W <-> Forall2 (fun (f : bool) c => (if f then SpecNormal.old_lines c else SpecNormal.new_lines c) = []) (f_now s2) cs)).
Proof.
  intros sort cs text A B HP NE OK LT PA. destruct (C23_normal_diff_read_back sort cs HP NE OK) as (o & m & E & MF & _ & PM & _ & CA).
  exists o, m. repeat (split; [assumption|]). intros ops1 s1 ops2 s2 e A1 A2.
  destruct (commands_fresh cs m OK CA A B PA) as (hs & L & CS & FH & FR & LN). rewrite <- LN in A1.
  destruct (C56_saved_for_any_file m _ hs text A ops1 ops2 s1 s2 e FR L CS LT A1 A2) as (m1 & mb & m2 & out & R & E1 & E2 & E3 & E4 & PR & _ & W & NW).
  pose proof (laid_normal _ _ _ _ _ _ PA _ FH [] (f_now s2) R (fun _ => conj eq_refl eq_refl)) as NM.
  change (count (@nil str)) with 0 in NM. rewrite Z.sub_0_r in NM. specialize (NM PR).
  exists m1, mb, m2, out, R. repeat (split; [assumption|]). split.
  - apply (nmixed_exists _ _ _ _ _ _ PA). exact (nwritten_flags _ _ _ _ _ NM).
  - intros W' MW. exact (normal_right _ _ _ _ _ _ NM MW).
Qed.
Print Assumptions C56_normal_saved_exactly.

(** Files the hypotheses fit: a normal diff with an addition, a removal and a replacement; a context diff of two hunks. *)
Definition saved_cmds : list ncmd := [NAdd 0 1 [lit "new"]; NDel 2 2 [lit "b"]; NAdd 3 4 [lit "x"; lit "y"]; NChg 5 7 [lit "e"] [lit "E"]].
Definition saved_old : list str := map nl ["a"; "b"; "c"; "d"; "e"]%string.
Definition saved_new : list str := map nl ["new"; "a"; "c"; "x"; "y"; "d"; "E"]%string.
Example C56_normal_example : Forall cmd_ok saved_cmds /\ ncommands true 1 1 saved_old saved_new saved_cmds /\ lines_of_text (concat saved_old) saved_old /\
  nwritten 1 [false; true; false; true] saved_old saved_cmds [lit "new"; nl "a"; lit "b"; lit "x"; lit "y"; nl "c"; nl "d"; lit "e"] /\
  nmixed 1 [false; true; false; true] saved_old saved_cmds (map nl ["new"; "a"; "b"; "c"; "x"; "y"; "d"; "e"]%string).
Proof.
  split; [|split; [|split; [|split]]].
  - repeat constructor; try (cbv; intuition congruence).
  - assert (K : forall f s t same A B c cs old new, (f = false -> same <> []) ->
      old_number c = (match c with NAdd _ _ _ => s + count same - 1 | _ => s + count same end) ->
      new_number c = (match c with NDel _ _ _ => t + count same - 1 | _ => t + count same end) ->
      ncommands false (s + count same + count (SpecNormal.old_lines c)) (t + count same + count (SpecNormal.new_lines c)) A B cs ->
      old = same ++ ended (SpecNormal.old_lines c) ++ A -> new = same ++ ended (SpecNormal.new_lines c) ++ B ->
      ncommands f s t old new (c :: cs)) by (intros; subst; now constructor).
    eapply (K _ _ _ []); [discriminate|reflexivity|reflexivity| |reflexivity|reflexivity].
    eapply (K _ _ _ (map nl ["a"]%string)); [discriminate|reflexivity|reflexivity| |reflexivity|reflexivity].
    eapply (K _ _ _ (map nl ["c"]%string)); [discriminate|reflexivity|reflexivity| |reflexivity|reflexivity].
    eapply (K _ _ _ (map nl ["d"]%string)); [discriminate|reflexivity|reflexivity| |reflexivity|reflexivity]. constructor.
  - apply C01_split_lossless. vm_compute. reflexivity.
  - apply (nw_add 1 [] saved_old 0 1 [lit "new"] _ false); [right; auto|].
    apply (nw_cmd 1 (map nl ["a"]%string) (map nl ["c"; "d"; "e"]%string) (NDel 2 2 [lit "b"]) _ true); [discriminate|reflexivity|].
    apply (nw_add 3 [] (map nl ["c"; "d"; "e"]%string) 3 4 [lit "x"; lit "y"] _ false); [left; reflexivity|].
    apply (nw_cmd 3 (map nl ["c"; "d"]%string) [] (NChg 5 7 [lit "e"] [lit "E"]) _ true); [discriminate|reflexivity|]. apply (nw_end _ []).
  - apply (nm_cmd 1 [] saved_old (NAdd 0 1 [lit "new"]) _ false); [reflexivity|].
    apply (nm_cmd 1 (map nl ["a"]%string) (map nl ["c"; "d"; "e"]%string) (NDel 2 2 [lit "b"]) _ true); [reflexivity|].
    apply (nm_cmd 3 (map nl ["c"]%string) (map nl ["d"; "e"]%string) (NAdd 3 4 [lit "x"; lit "y"]) _ false); [reflexivity|].
    apply (nm_cmd 4 (map nl ["d"]%string) [] (NChg 5 7 [lit "e"] [lit "E"]) _ true); [reflexivity|]. apply (nm_end _ []).
Qed.
(** The history: the second and the fourth change applied. *)
Example C56_history_example : exists s, abs_run (abs_init (length saved_cmds)) [ApplyDirect 1 true; ApplyDirect 3 true] = Some s /\
  f_now s = [false; true; false; true] /\ f_now s <> f_saved s.
Proof. eexists. split; [vm_compute; reflexivity|]. split; [reflexivity|discriminate]. Qed.
(** The first file of [sample_cdoc] and a file of 25 lines. *)
Definition saved_between : list str := map nl ["6"; "7"; "8"; "9"; "10"; "11"; "12"; "13"; "14"; "15"; "16"; "17"; "18"; "19"]%string.
Definition saved_old2 : list str := map nl ["1"; "2"; "a"; ""; "b"]%string ++ saved_between ++ map nl ["x"; "y"; "c"; "gone"; "d"; "25"]%string.
Definition saved_new2 : list str := map nl ["1"; "2"; "a"; ""; "new"; "b"]%string ++ saved_between ++ map nl ["- z"; "c"; "d"; "more"; "25"]%string.
Example C56_context_example : cdoc_ok false sample_cdoc /\ lines_of_text (concat saved_old2) saved_old2 /\
  exists p, In p (cd_files sample_cdoc) /\ cpatches true 1 1 saved_old2 saved_new2 (cp_chunks p) /\ cchanges (cp_chunks p) = 4%nat.
Proof.
  split; [apply C24_example|]. split; [apply C01_split_lossless; vm_compute; reflexivity|].
  eexists. split; [left; reflexivity|]. split; [|reflexivity]. cbn [cp_chunks]. unfold sample_chunks.
  assert (K : forall f s t same A B h hs old new, (f = false -> same <> []) -> ch_a h = s + count same -> ch_b h = t + count same ->
    cpatches false (ch_a h + src_count (ch_segs h)) (ch_b h + dst_count (ch_segs h)) A B hs ->
    old = same ++ ended (concat (map src_lines (ch_segs h))) ++ A -> new = same ++ ended (concat (map dst_lines (ch_segs h))) ++ B ->
    cpatches f s t old new (h :: hs)) by (intros; subst; now constructor).
  eapply (K _ _ _ (map nl ["1"; "2"]%string)); [discriminate|reflexivity|reflexivity| |reflexivity|reflexivity].
  eapply (K _ _ _ saved_between); [discriminate|reflexivity|reflexivity| |reflexivity|reflexivity]. constructor.
Qed.
(** The wanted mixtures are the right ones: with every change applied the old file, with none the new one. *)
Theorem C56_wanted_mixture :
  (forall f s t A B cs fs W, ncommands f s t A B cs -> nmixed s fs A cs W ->
     (Forall (eq true) fs -> W = A) /\ (Forall (eq false) fs -> W = B)) /\
  (forall f s t A B us fs W, cpatches f s t A B us -> cmixed ended s fs A us W ->
     (Forall (eq true) fs -> W = A) /\ (Forall (eq false) fs -> W = B)).
Proof.
  split.
  - intros f s t A B cs fs W P. revert fs W. induction P as [f s t same|f s t same A B c cs HF HA HB P IH]; intros fs W M.
    + inversion M; subst. auto.
    + inversion M as [|s1 same2 A2 c1 cs1 f1 fs1 W1 HN M1 Q1 Q2 Q3 Q4 Q5]. subst s1 c1 cs1 fs W.
      assert (E : same2 = same /\ A2 = A).
      { apply same_cut in Q3; [|destruct c; unfold str, chr, count in *; lia]. destruct Q3 as [-> Q3]. split; [reflexivity|]. now apply app_inv_head in Q3. }
      destruct E as [-> ->]. destruct (IH _ _ M1) as [I1 I2].
      split; intros F; inversion F as [|? ? F1 F2]; subst f1; [rewrite (I1 F2)|rewrite (I2 F2)]; reflexivity.
  - intros f s t A B us fs W P. revert fs W.
    assert (PT : forall ss g, length g = length (filter is_change ss) -> (Forall (eq true) g -> pick g ss = concat (map src_lines ss)) /\ (Forall (eq false) g -> pick g ss = concat (map dst_lines ss))).
    { induction ss as [|[ls|r a] ss IHs]; intros g L; cbn [filter is_change] in L.
      - destruct g; [split; reflexivity|discriminate].
      - destruct (IHs g L) as [I1 I2]. split; intros F; cbn [pick map concat src_lines dst_lines]; [rewrite (I1 F)|rewrite (I2 F)]; reflexivity.
      - destruct g as [|x g]; [discriminate|]. destruct (IHs g ltac:(now injection L)) as [I1 I2].
        split; intros F; inversion F as [|? ? F1 F2]; subst x; cbn [pick map concat src_lines dst_lines]; [rewrite (I1 F2)|rewrite (I2 F2)]; reflexivity. }
    induction P as [f s t same|f s t same A B u us HF HA HB P IH]; intros fs W M.
    + inversion M; subst. auto.
    + inversion M as [|s1 same2 A2 h1 hs1 f1 f2 W1 HN HL M1 Q1 Q2 Q3 Q4 Q5]. subst s1 h1 hs1 fs W.
      assert (E : same2 = same /\ A2 = A).
      { apply same_cut in Q3; [|unfold str, chr, count in *; lia]. destruct Q3 as [-> Q3]. split; [reflexivity|]. now apply app_inv_head in Q3. }
      destruct E as [-> ->]. destruct (IH _ _ M1) as [I1 I2]. destruct (PT _ _ HL) as [J1 J2].
      split; intros F; apply Forall_app in F as [F1 F2]; [rewrite (I1 F2), (J1 F1)|rewrite (I2 F2), (J2 F1)]; reflexivity.
Qed.
Print Assumptions C56_wanted_mixture.
