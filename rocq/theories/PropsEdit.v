(** C32-C35: DiffModel::linesChanged. *)
From Coq Require Import ZifyBool ZifyNat ZifyN String.
From Verif Require Import Base QtStr Lev Diff Save LinesChanged SpecEdit SpecInline SpecHistory SpecPatch PLev PropsLev PHistory PropsHistory PMarkLoop PPatch PEditLines.
Local Open Scope Z_scope.

(** C32. [old] stands at line 1 + |D1| of the current text; after linesChanged(old, new, that line) the
    differences describe the edited text as a patch of the same source. Holds when everything is applied,
    and more generally when unapplied differences keep clear of the edit ([harmless]). *)
Theorem C32_edit_keeps_patch qhash m ds S D1 old D2 new :
  listed m = Ok ds -> NoDup (dm_diffs m) ->
  describes 1 1 S (D1 ++ old ++ D2) ds ->
  harmless (1 + count D1) ds -> region_fits ds old new (1 + count D1) ->
  Forall short S -> Forall short (D1 ++ new ++ D2) ->
  exists m' ins rem ds', lines_changed qhash m old new (1 + count D1) = Ok (m', ins, rem) /\
    listed m' = Ok ds' /\ NoDup (dm_diffs m') /\
    describes 1 1 S (D1 ++ new ++ D2) ds' /\
    (Forall (fun d => d_applied d = true) ds -> Forall (fun d => d_applied d = true) ds').
Proof.
  intros HL Hn HD Hh Hf HS1 HS2.
  destruct (edit_ok qhash m ds S D1 old D2 new HL Hn HD Hh Hf HS1 HS2)
    as (m' & ins & rem & i1 & i3 & pre & mid & post & news & A & A' & R & R' & B & B' & delta & E & Hs & -> & [] & E1 & E2 & K1 & K2 & K3 & K4 & K5).
  assert (listed m' = Ok (pre ++ news ++ map (moved (count new - count old)) post)) as HL'.
  { unfold listed. rewrite rp_new_ids, !deref_all_app, rp_pre', rp_ins', rp_post'. reflexivity. }
  exists m', ins, rem. eexists. split; [exact E|]. split; [exact HL'|]. split; [exact rp_nodup|]. split.
  - rewrite E1, E2. apply desc_app; [exact K1|]. apply desc_app; [exact K2|exact K3].
  - intros Ha. assert (ds = pre ++ mid ++ post) as Eds.
    { unfold listed in HL. rewrite rp_old_ids, !deref_all_app, rp_pre, rp_mid, rp_post in HL. cbn in HL. congruence. }
    rewrite Eds, !Forall_app in Ha. destruct Ha as (H1 & _ & H3). rewrite !Forall_app. split; [exact H1|]. split.
    + eapply Forall_impl; [|exact K4]. intros d (Hd & _). exact Hd.
    + apply Forall_map. eapply Forall_impl; [|exact H3]. auto.
Qed.

(** Sequences of edits: each replaces [e_len] lines after [e_pos] lines by [e_new]. *)
Record edit_op := mk_edit { e_pos : nat; e_len : nat; e_new : list str }.
Definition e_old (doc : list str) (e : edit_op) : list str := firstn (e_len e) (skipn (e_pos e) doc).
Definition edited (doc : list str) (e : edit_op) : list str :=
  firstn (e_pos e) doc ++ e_new e ++ skipn (e_pos e + e_len e) doc.
Fixpoint run_edits (qhash : str -> N) (m : dmodel) (doc : list str) (es : list edit_op) : res (dmodel * list str) :=
  match es with
  | [] => Ok (m, doc)
  | e :: es' =>
      do r <- lines_changed qhash m (e_old doc e) (e_new e) (1 + Z.of_nat (e_pos e));
      let '(m', _, _) := r in
      run_edits qhash m' (edited doc e) es'
  end.
(** Every edit is within the text, its lines are not absurdly long and the texts are within the size the
    line table can handle. *)
Fixpoint edits_fit (S doc : list str) (es : list edit_op) : Prop :=
  match es with
  | [] => True
  | e :: es' =>
      (e_pos e + e_len e <= length doc)%nat /\
      (count S + Z.of_nat (e_len e) + 1) * (count doc + count (e_new e) + 1) <= Z.of_N limit /\
      Forall short (e_new e) /\ edits_fit S (edited doc e) es'
  end.
Definition in_step (m : dmodel) (S doc : list str) : Prop :=
  exists ds, listed m = Ok ds /\ NoDup (dm_diffs m) /\ describes 1 1 S doc ds /\ Forall (fun d => d_applied d = true) ds.

Lemma desc_total s t S D ds : describes s t S D ds -> Forall (fun d => d_applied d = true) ds ->
  total (fun d => count (d_slines d)) ds <= count S /\ total (fun d => count (d_dlines d)) ds <= count D.
Proof.
  induction 1 as [s t same | s t same S D d ds E1 E2 H IH]; intros Ha; cbn [total].
  - pose proof (count_pos same). lia.
  - inversion Ha; subst. destruct (IH H3) as [I1 I2]. rewrite !count_app, count_lines, (real_end d H2).
    pose proof (count_pos same). lia.
Qed.
Lemma total_filter_le {A} (f : A -> Z) p l : (forall x, 0 <= f x) -> total f (filter p l) <= total f l.
Proof. intros Hf. induction l as [|x l IH]; cbn; [lia|]. destruct (p x); cbn; specialize (Hf x); lia. Qed.

Theorem C32_any_sequence_of_edits qhash S : Forall short S -> forall es m doc,
  in_step m S doc -> Forall short doc -> edits_fit S doc es ->
  exists m' doc', run_edits qhash m doc es = Ok (m', doc') /\ in_step m' S doc' /\
    doc' = fold_left edited es doc.
Proof.
  intros HS. induction es as [|e es IH]; intros m doc (ds & HL & Hn & HD & Ha) Hs Hf; cbn [run_edits].
  - exists m, doc. split; [reflexivity|]. split; [exists ds; auto|reflexivity].
  - cbn [edits_fit] in Hf. destruct Hf as (F1 & F2 & F3 & F4).
    assert (doc = firstn (e_pos e) doc ++ e_old doc e ++ skipn (e_pos e + e_len e) doc) as Ed.
    { unfold e_old. rewrite <- (firstn_skipn (e_pos e) doc) at 1. f_equal.
      rewrite <- (firstn_skipn (e_len e) (skipn (e_pos e) doc)) at 1. f_equal. apply skipn_twice. }
    assert (count (firstn (e_pos e) doc) = Z.of_nat (e_pos e)) as Ec by (unfold count; rewrite firstn_length; lia).
    assert (Forall short (edited doc e)) as Hs'.
    { rewrite Ed in Hs. apply Forall_app in Hs as [Hs1 Hs]. apply Forall_app in Hs as [_ Hs2]. unfold edited.
      rewrite !Forall_app. auto. }
    pose proof HD as HD'. rewrite Ed in HD'.
    destruct (C32_edit_keeps_patch qhash m ds S _ _ _ (e_new e) HL Hn HD') as (m' & ins & rem & ds' & R1 & R2 & R3 & R4 & R5).
    { intros pre d post E Hd. rewrite Forall_forall in Ha. rewrite (Ha d) in Hd; [discriminate|]. rewrite E, in_app_iff. right; left; reflexivity. }
    { unfold region_fits. cbv zeta. destruct (desc_total _ _ _ _ _ HD Ha) as [T1 T2].
      match goal with |- context [filter ?p ds] => set (pp := p) end.
      pose proof (total_filter_le (fun d => count (d_slines d)) pp ds ltac:(intros; apply count_pos)).
      pose proof (total_filter_le (fun d => count (d_dlines d)) pp ds ltac:(intros; apply count_pos)).
      pose proof (total_pos (fun d => count (d_slines d)) (filter pp ds) ltac:(intros; apply count_pos)).
      pose proof (total_pos (fun d => count (d_dlines d)) (filter pp ds) ltac:(intros; apply count_pos)).
      assert (count (e_old doc e) <= Z.of_nat (e_len e)) by (unfold e_old, count; rewrite firstn_length; lia).
      pose proof (count_pos (e_old doc e)). pose proof (count_pos (e_new e)).
      eapply Z.le_trans; [|exact F2]. apply Z.mul_le_mono_nonneg; lia. }
    { exact HS. } { exact Hs'. }
    rewrite Ec in R1. rewrite R1. cbn [bind].
    destruct (IH m' (edited doc e)) as (m2 & doc2 & Q1 & Q2 & Q3); [|exact Hs'|exact F4|].
    { exists ds'. auto. }
    exists m2, doc2. split; [exact Q1|]. split; [exact Q2|]. cbn [fold_left]. exact Q3.
Qed.

(** C33. Any call with defined behaviour: the list of differences is the old one with the contiguous run
    [rem] replaced by the new objects [ins]; the differences before are untouched, those after are only
    moved by the change in line count; nothing else of the model changes. *)
Theorem C33_report_is_exact qhash m old new edit m' ins rem ds :
  lines_changed qhash m old new edit = Ok (m', ins, rem) -> listed m = Ok ds -> NoDup (dm_diffs m) ->
  same_frame m m' /\
  exists before after dbefore dremoved dafter dinserted,
    dm_diffs m = before ++ rem ++ after /\ dm_diffs m' = before ++ ins ++ after /\
    ds = dbefore ++ dremoved ++ dafter /\
    deref_all (dm_store m') rem = Ok dremoved /\ deref_all (dm_store m') ins = Ok dinserted /\
    listed m' = Ok (dbefore ++ dinserted ++ map (moved (count new - count old)) dafter) /\
    length before = length dbefore /\ length rem = length dremoved /\
    (forall i, In i ins -> (length (dm_store m) <= i)%nat) /\ NoDup (dm_diffs m').
Proof.
  intros H HL Hn. destruct (report_ok qhash m old new edit m' ins rem ds H HL Hn) as (Hs & i1 & i3 & pre & mid & post & news & []).
  split; [exact Hs|]. exists i1, i3, pre, mid, post, news. split; [assumption|]. split; [assumption|].
  split. { unfold listed in HL. rewrite rp_old_ids, !deref_all_app, rp_pre, rp_mid, rp_post in HL. cbn in HL. congruence. }
  split; [assumption|]. split; [assumption|]. split.
  { unfold listed. rewrite rp_new_ids, !deref_all_app, rp_pre', rp_ins', rp_post'. reflexivity. }
  split; [symmetry; apply (deref_all_ok _ _ _ rp_pre)|]. split; [symmetry; apply (deref_all_ok _ _ _ rp_mid)|]. auto.
Qed.

Lemma proper_size d : proper d -> 0 < size_of d.
Proof.
  unfold proper, size_of, count. destruct (d_slines d), (d_dlines d); cbn [length]; try lia.
  destruct (d_type d); tauto.
Qed.
(** C34. The touched region R of the source and R' of the edited text: the inserted differences describe
    exactly R against R', every one is a real change with the right type and a correct destination number,
    and together they are a minimal script; so nothing is inserted if the region equals the source again. *)
Theorem C34_inserted_minimal_and_real qhash m ds S D1 old D2 new :
  listed m = Ok ds -> NoDup (dm_diffs m) ->
  describes 1 1 S (D1 ++ old ++ D2) ds ->
  harmless (1 + count D1) ds -> region_fits ds old new (1 + count D1) ->
  Forall short S -> Forall short (D1 ++ new ++ D2) ->
  exists m' ins rem dinserted dbefore dafter A A' R R' B B',
    lines_changed qhash m old new (1 + count D1) = Ok (m', ins, rem) /\
    deref_all (dm_store m') ins = Ok dinserted /\
    listed m' = Ok (dbefore ++ dinserted ++ dafter) /\
    S = A ++ R ++ B /\ D1 ++ new ++ D2 = A' ++ R' ++ B' /\
    describes 1 1 A A' dbefore /\ describes (1 + count A) (1 + count A') R R' dinserted /\
    describes (1 + count A + count R) (1 + count A' + count R') B B' dafter /\
    Forall new_number dinserted /\
    is_distance false R R' (Z.to_nat (total (fun d => count (d_slines d) + count (d_dlines d)) dinserted)) /\
    (R = R' -> ins = []).
Proof.
  intros HL Hn HD Hh Hf HS1 HS2.
  destruct (edit_ok qhash m ds S D1 old D2 new HL Hn HD Hh Hf HS1 HS2)
    as (m' & ins & rem & i1 & i3 & pre & mid & post & news & A & A' & R & R' & B & B' & delta & E & Hs & -> & [] & E1 & E2 & K1 & K2 & K3 & K4 & K5).
  exists m', ins, rem, news, pre, (map (moved (count new - count old)) post), A, A', R, R', B, B'.
  split; [exact E|]. split; [assumption|]. split.
  { unfold listed. rewrite rp_new_ids, !deref_all_app, rp_pre', rp_ins', rp_post'. reflexivity. }
  split; [exact E1|]. split; [exact E2|]. split; [exact K1|]. split; [exact K2|]. split; [exact K3|]. split; [exact K4|].
  split; [exact K5|]. intros <-. destruct K5 as [_ K5].
  assert (edit false R R 0) as H0 by (clear; induction R; constructor; assumption).
  specialize (K5 0%nat H0).
  destruct news as [|d news]; [destruct (deref_all_ok _ _ _ rp_ins') as [Hl _]; destruct ins; [reflexivity|discriminate]|].
  exfalso. inversion K4 as [|? ? (_ & _ & Hp) _]; subst. cbn [total] in K5.
  pose proof (total_pos size_of news ltac:(intros x; unfold size_of; pose proof (count_pos (d_slines x)); pose proof (count_pos (d_dlines x)); lia)).
  pose proof (proper_size d Hp).
  unfold size_of in *. lia.
Qed.
(** In particular, with no other difference left, an edit that makes the text equal to the source again
    leaves no difference. *)
Theorem C34_restoring_leaves_nothing qhash m ds S D1 old D2 new :
  listed m = Ok ds -> NoDup (dm_diffs m) -> describes 1 1 S (D1 ++ old ++ D2) ds ->
  Forall (fun d => touched (1 + count D1) (1 + count D1 + count old) d = true) ds ->
  D1 ++ new ++ D2 = S -> old <> [] \/ new <> [] ->
  region_fits ds old new (1 + count D1) -> Forall short S ->
  exists m' rem, lines_changed qhash m old new (1 + count D1) = Ok (m', [], rem) /\ listed m' = Ok [].
Proof.
  intros HL Hn HD Ht ES Hne Hf HS1.
  assert (harmless (1 + count D1) ds) as Hh.
  { intros pre d post E Hd. rewrite Forall_forall in Ht. specialize (Ht d). rewrite E, in_app_iff in Ht.
    specialize (Ht (or_intror (or_introl eq_refl))). unfold touched in Ht. rewrite Hd in Ht. discriminate. }
  destruct (edit_ok qhash m ds S D1 old D2 new HL Hn HD Hh Hf HS1 ltac:(congruence))
    as (m' & ins & rem & i1 & i3 & pre & mid & post & news & A & A' & R & R' & B & B' & delta & E & Hs & -> & HR & E1 & E2 & K1 & K2 & K3 & K4 & K5).
  destruct (C34_inserted_minimal_and_real qhash m ds S D1 old D2 new HL Hn HD Hh Hf HS1 ltac:(congruence))
    as (m2 & ins2 & rem2 & din & dbef & daft & A2 & A2' & R2 & R2' & B2 & B2' & F & G1 & G2 & G3 & G4 & G5 & G6 & G7 & G8 & G9 & G10).
  rewrite E in F. injection F as <- <- <-.
  (* every difference is in the removed run *)
  assert (pre = [] /\ post = []) as [-> ->].
  { unfold lines_changed in E. 
    set (body := bind (deref_all (dm_store m) (dm_diffs m)) _) in E.
    assert (match old with [] => match new with [] => Ok (m, [], []) | _ :: _ => body end | _ :: _ => body end = body) as Eb.
    { destruct old, new; try reflexivity. destruct Hne; congruence. }
    rewrite Eb in E. unfold body in E. clear Eb body. unfold listed in HL. rewrite HL in E. cbn [bind] in E.
    assert (forall l, Forall (fun d => touched (1 + count D1) (1 + count D1 + count old) d = true) l ->
      until (starts_range (1 + count D1)) l = ([], l) /\ until (stops_range (1 + count D1 + Z.of_nat (length old))) l = (l, [])) as HU.
    { induction l as [|d l IHl]; intros Hl; [auto|]. inversion Hl; subst. destruct (IHl H2) as [_ I2]. cbn [until]. rewrite I2.
      unfold touched in H1. rewrite !andb_true_iff in H1. destruct H1 as ((X1 & X2) & X3).
      assert (starts_range (1 + count D1) d = true) as -> by (unfold starts_range; rewrite tend, X1; lia).
      assert (stops_range (1 + count D1 + Z.of_nat (length old)) d = false) as -> by (unfold stops_range; rewrite X1; fold (count old); lia).
      auto. }
    destruct (HU ds Ht) as [U1 U2]. rewrite U1 in E. rewrite U2 in E.
    destruct (region_numbers _ ds ds) as [sl dl]. cbn [length] in E.
    destruct (region_lines _ _ _ _ _) as [[src dst]| |]; cbn [bind] in E; try discriminate.
    destruct (create_table _ _) as [r| |]; cbn [bind] in E; try discriminate.
    destruct (create_markers _ _ _ _) as [[mk1 mk2]| |]; cbn [bind] in E; try discriminate.
    destruct (marker_loop _ _ _ _ _ _ _ _ _ _) as [nn| |]; cbn [bind] in E; try discriminate.
    pose proof (proj1 (deref_all_ok _ _ _ HL)) as Hlen. rewrite Nat.add_0_l, Hlen, skipn_all in E. cbn [skipn firstn shift_after bind app] in E.
    rewrite firstn_all in E. injection E as _ _ Hrem. destruct HR. rewrite <- Hrem in rp_old_ids.
    assert (i1 = [] /\ i3 = []) as [-> ->].
    { apply (f_equal (@length nat)) in rp_old_ids. rewrite !app_length in rp_old_ids.
      destruct i1, i3; cbn in rp_old_ids; try lia. auto. }
    cbn in rp_pre, rp_post. split; congruence. }
  assert (dm_diffs m' = ins /\ deref_all (dm_store m') ins = Ok news) as [X1 X2].
  { destruct HR. cbn in rp_pre, rp_post. 
    assert (i1 = []) as -> by (destruct (deref_all_ok _ _ _ rp_pre) as [Hl _]; destruct i1; [reflexivity|discriminate]).
    assert (i3 = []) as -> by (destruct (deref_all_ok _ _ _ rp_post) as [Hl _]; destruct i3; [reflexivity|discriminate]).
    rewrite app_nil_r in rp_new_ids. auto. }
  inversion K1; subst A'. inversion K3; subst B'.
  assert (R = R') as ER.
  { rewrite ES, E1 in E2. apply app_inv_head in E2. apply app_inv_tail in E2. exact E2. }
  assert (news = []) as ->.
  { subst R'. destruct K5 as [_ K5]. assert (edit false R R 0) as H0' by (clear; induction R; constructor; assumption).
    specialize (K5 0%nat H0'). destruct news as [|d news]; [reflexivity|].
    exfalso. inversion K4 as [|? ? (_ & _ & Hp) _]; subst. cbn [total] in K5.
    pose proof (total_pos size_of news ltac:(intros x; unfold size_of; pose proof (count_pos (d_slines x)); pose proof (count_pos (d_dlines x)); lia)).
    pose proof (proper_size d Hp).
    lia. }
  assert (ins = []) as -> by (destruct (deref_all_ok _ _ _ X2) as [Hl _]; destruct ins; [reflexivity|discriminate]).
  exists m', rem. split; [exact E|]. unfold listed. rewrite X1. reflexivity.
Qed.

(** C28 in terms of texts: if a model's source lines are the lines of the source S at their source line
    numbers, then after any history of applying and saving there is a text the differences describe as a
    patch of S; so the tracking numbers are real positions in the patched text, and linesChanged can go on
    from there. *)
Lemma expect_describes s t S D ds : describes s t S D ds -> forall fs ss shift,
  length fs = length ds -> length ss = length ds -> exists doc, describes s (s + shift) S doc (expect shift ds fs ss).
Proof.
  induction 1 as [s t same | s t same S D d ds E1 E2 H IH]; intros [|f fs] [|b ss] shift L1 L2; cbn in L1, L2; try discriminate.
  - exists same. constructor.
  - cbn [expect]. set (d' := restate d (d_src d + shift) f (xorb f b)).
    destruct (IH fs ss (shift + (if f then dlc d - slc d else 0))) as (doc & Hd); [congruence|congruence|].
    exists (same ++ shown d' ++ doc). change (lines_of (d_slines d)) with (lines_of (d_slines d')).
    apply desc_diff; [exact E1|cbn; lia|]. change (d_slines d') with (d_slines d).
    eapply desc_cast; [exact Hd|reflexivity|]. unfold d', shown, dlc, slc. fold (count (d_dlines d)) (count (d_slines d)).
    destruct f; cbn [restate d_applied d_dlines d_slines]; rewrite count_lines; lia.
Qed.
Theorem C28_tracking_is_position m ds ops s S :
  fresh m ds -> abs_run (abs_init (length ds)) ops = Some s -> describes 1 1 S S ds ->
  exists m' ds' doc, run m ops = Ok m' /\ listed m' = Ok ds' /\ map d_applied ds' = f_now s /\ describes 1 1 S doc ds'.
Proof.
  intros Hf Hr HD. pose proof (fresh_sim m ds Hf) as Hs. destruct Hf as [HL HN HH HS HO HC HSel].
  assert (forall d, In d ds -> d_connected d = true) as Hconn by (intros d Hd; apply HS in Hd; tauto).
  destruct (run_sim m ds ops m _ s HO Hconn Hs Hr) as (m' & E & [V R ND HH' L1 L2 SL] & Hc).
  destruct (expect_describes _ _ _ _ _ HD (f_now s) (f_saved s) 0 L1 L2) as (doc & Hdoc).
  exists m', (expect 0 ds (f_now s) (f_saved s)), doc. split; [exact E|]. split; [exact V|]. split; [|exact Hdoc].
  clear - L1 L2. revert L1 L2. generalize (f_now s) (f_saved s) 0. induction ds as [|d ds IH]; intros [|f fs] [|b ss] z L1 L2; cbn in *; try discriminate; [reflexivity|].
  f_equal. apply IH; congruence.
Qed.
Print Assumptions C28_tracking_is_position.

(** * Examples *)
Definition ex_S : list str := [lit "one"; lit "two"; lit "three"; lit "four"; lit "five"].
Definition ex_hash (s : str) : N := N.of_nat (length s).
Example C32_example_initial : in_step (new_model (lit "a") (lit "b")) ex_S ex_S.
Proof. exists []. split; [reflexivity|]. split; [constructor|]. split; constructor. Qed.
Definition ex_edits : list edit_op :=
  [ mk_edit 1 1 [lit "TWO"; lit "2"]; mk_edit 4 1 []; mk_edit 2 2 [lit "x"]; mk_edit 1 2 [lit "two"; lit "three"; lit "four"] ].
Example C32_example_fits : edits_fit ex_S ex_S ex_edits.
Proof.
  cbn. unfold count, short, count. cbn.
  repeat (split; [lia|]); repeat (split; [lia || (repeat constructor; cbn; lia)|]); auto.
Qed.
Example C32_example_run :
  match run_edits ex_hash (new_model (lit "a") (lit "b")) ex_S ex_edits with
  | Ok (m', doc) => doc = ex_S /\ dm_diffs m' = []
  | _ => False
  end.
Proof. vm_compute. auto. Qed.
Example C32_example_run_3 :
  match run_edits ex_hash (new_model (lit "a") (lit "b")) ex_S (firstn 2 ex_edits) with
  | Ok (m', doc) => doc = [lit "one"; lit "TWO"; lit "2"; lit "three"; lit "five"] /\ length (dm_diffs m') = 2%nat
  | _ => False
  end.
Proof. vm_compute. auto. Qed.

(** * C35: what fails *)
(** A consequence of describing a text: the source lines are where the difference says. *)
Lemma desc_source_line s t S D ds : describes s t S D ds -> forall d x l, In d ds -> lines_of (d_slines d) = x :: l ->
  nth_error S (Z.to_nat (d_src d - s)) = Some x.
Proof.
  induction 1 as [s t same | s t same S D d ds E1 E2 H IH]; intros d' x l Hd Hx; [destruct Hd|].
  destruct Hd as [<-|Hd].
  - replace (Z.to_nat (d_src d - s)) with (length same) by (unfold count in *; lia).
    rewrite nth_error_app2, Nat.sub_diag, Hx by lia. reflexivity.
  - specialize (IH d' x l Hd Hx). rewrite app_assoc.
    assert (s + count same + count (d_slines d) <= d_src d') as Hge.
    { clear - H Hd. remember (s + count same + count (d_slines d)) as s1. clear Heqs1.
      induction H as [? ? ? | s0 t0 same0 S0 D0 d0 ds0 F1 F2 F3 IH0]; [destruct Hd|].
      pose proof (count_pos same0). pose proof (count_pos (d_slines d0)).
      destruct Hd as [<-|Hd]; [lia|]. specialize (IH0 Hd). lia. }
    rewrite nth_error_app2; rewrite app_length, lines_length.
    + rewrite <- IH. f_equal. unfold count in *. lia.
    + unfold count in *. lia.
Qed.
Definition lines_n (n : nat) : list str := map (fun k => number (Z.of_nat k)) (seq 1 n).
(** One unapplied insertion of two lines at line 5, then line 20 is edited: the new difference claims that
    source line 18 was changed. *)
Definition C35_diff : difference := mk_diff Insert 5 5 5 [] [new_ds (lit "p"); new_ds (lit "q")] false false false true.
Definition C35_model : dmodel :=
  with_contents (new_model (lit "a") (lit "b")) [mk_hunk 5 5 [] HNormal [0%nat]] [0%nat] [C35_diff].
Theorem C35_edit_after_unapplied_refuted : exists m ds S D1 old D2 new m' ins rem ds',
  listed m = Ok ds /\ describes 1 1 S (D1 ++ old ++ D2) ds /\
  lines_changed ex_hash m old new (1 + count D1) = Ok (m', ins, rem) /\ listed m' = Ok ds' /\
  ~ describes 1 1 S (D1 ++ new ++ D2) ds'.
Proof.
  exists C35_model, [C35_diff], (lines_n 30), (lines_n 19), [lit "20"], (skipn 20 (lines_n 30)), [lit "twenty"].
  eexists. eexists. eexists. eexists. split; [reflexivity|]. split; [|split; [vm_compute; reflexivity|split; [vm_compute; reflexivity|]]].
  - change (lines_n 19 ++ [lit "20"] ++ skipn 20 (lines_n 30)) with (firstn 4 (lines_n 30) ++ shown C35_diff ++ skipn 4 (lines_n 30)).
    change (lines_n 30) with (firstn 4 (lines_n 30) ++ lines_of (d_slines C35_diff) ++ skipn 4 (lines_n 30)) at 1.
    apply desc_diff; [reflexivity|reflexivity|]. constructor.
  - intros H. eapply desc_source_line in H; [|right; left; reflexivity|reflexivity]. vm_compute in H. discriminate H.
Qed.
(** Undefined behaviour: an unapplied long insertion, an applied change after it, an edit further down. *)
Definition C35_diffs2 : list difference :=
  [ mk_diff Insert 3 3 3 [] (map new_ds (lines_n 20)) false false false true;
    mk_diff Change 6 26 6 [new_ds (lit "6")] [new_ds (lit "six")] true false true true ].
Theorem C35_edit_after_unapplied_ub_refuted : exists m ds S D1 old D2 new,
  listed m = Ok ds /\ describes 1 1 S (D1 ++ old ++ D2) ds /\
  exists why, lines_changed ex_hash m old new (1 + count D1) = UB why.
Proof.
  exists (with_contents C35_model [] [0; 1]%nat C35_diffs2), C35_diffs2, (lines_n 30),
    (firstn 5 (lines_n 30) ++ [lit "six"] ++ firstn 7 (skipn 6 (lines_n 30))), [lit "14"], (skipn 14 (lines_n 30)), [lit "x"].
  split; [reflexivity|]. split; [|eexists; vm_compute; reflexivity].
  set (d1 := mk_diff Insert 3 3 3 [] (map new_ds (lines_n 20)) false false false true).
  set (d2 := mk_diff Change 6 26 6 [new_ds (lit "6")] [new_ds (lit "six")] true false true true).
  change C35_diffs2 with [d1; d2].
  change ((firstn 5 (lines_n 30) ++ [lit "six"] ++ firstn 7 (skipn 6 (lines_n 30))) ++ [lit "14"] ++ skipn 14 (lines_n 30))
    with (firstn 2 (lines_n 30) ++ shown d1 ++ (firstn 3 (skipn 2 (lines_n 30)) ++ shown d2 ++ skipn 6 (lines_n 30))).
  change (lines_n 30) with (firstn 2 (lines_n 30) ++ lines_of (d_slines d1) ++ (firstn 3 (skipn 2 (lines_n 30)) ++ lines_of (d_slines d2) ++ skipn 6 (lines_n 30))) at 1.
  apply desc_diff; [reflexivity|reflexivity|]. apply desc_diff; [reflexivity|reflexivity|]. constructor.
Qed.
(** An edit too large for the line table is silently ignored. *)
Theorem C35_oversize_edit_dropped qhash m old new edit :
  dm_diffs m = [] -> (limit < area old new < 4294967296)%N ->
  lines_changed qhash m old new edit = Ok (m, [], []).
Proof.
  intros Hd [H1 H2]. unfold lines_changed. rewrite Hd. cbn [deref_all bind until filter region_numbers region_lines length firstn skipn Nat.add].
  assert (create_table new_table (lines_pair qhash old new) = Ok (0%nat, new_table)) as E.
  { unfold create_table, set_size. cbn [lines_pair sp_m sp_n]. unfold u32. fold (area old new). rewrite N.mod_small by exact H2.
    unfold limit in H1. assert (N.ltb 16777216 (area old new) = true) as -> by lia. reflexivity. }
  assert (create_markers new_table (lines_pair qhash old new) [] [] = Ok ([], [])) as E2 by (vm_compute; reflexivity).
  destruct old as [|x old], new as [|y new]; rewrite ?E; cbn [bind snd]; rewrite ?E2; cbn [bind length Nat.add marker_loop app seq shift_after];
    rewrite ?app_nil_r; try reflexivity; do 2 f_equal; f_equal; rewrite <- Hd; apply with_contents_id.
Qed.
Example C35_oversize_example :
  let old := repeat (lit "a") (N.to_nat 5000) in let new := repeat (lit "b") (N.to_nat 5000) in
  (limit < area old new < 4294967296)%N.
Proof. vm_compute. split; reflexivity. Qed.

Print Assumptions C32_edit_keeps_patch.
Print Assumptions C32_any_sequence_of_edits.
Print Assumptions C33_report_is_exact.
Print Assumptions C34_inserted_minimal_and_real.
Print Assumptions C34_restoring_leaves_nothing.
Print Assumptions C35_edit_after_unapplied_refuted.
Print Assumptions C35_edit_after_unapplied_ub_refuted.
Print Assumptions C35_oversize_edit_dropped.
