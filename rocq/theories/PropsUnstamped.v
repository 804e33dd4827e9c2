(** C18: recreated diffs without time stamps. *)
From Coq Require Import String Sorted Permutation.
From Verif Require Import Base QtStr Diff Save Regex Patterns Parser SpecPatch SpecParse SpecText SpecUnified SpecUnstamped
  PHeaders PFileHeads PUnified PUnifiedDoc PAnyInput PropsParse PropsText PUnifiedPrint PUnifiedRead PropsUnified PropsRecreate PropsRewritten PNormalDoc PList.
Local Open Scope Z_scope.

Notation again n := (escape_path (unescape_path n)).
Definition bare_head (mark : string) (n t : str) : str := lit mark ++ n ++ TAB :: t ++ [NL].
Definition bare_text (p : upatch) : list str :=
  [bare_head "--- " (again (up_old p)) (up_stamp1 p); bare_head "+++ " (again (up_new p)) (up_stamp2 p)] ++
  concat (map hunk_text (map rewritten_hunk (up_hunks p))).
Lemma bare_recreated p m : patch_is p m -> lines_terminated p -> recreate_diff m = Ok (concat (bare_text p)).
Proof.
  intros ([N1 N2 _ _ N5 N6 N7 N8] & hs & [[C1 C2 _ _ _ _] _] & F) T. unfold recreate_diff. rewrite C1.
  rewrite (recreate_hunks_text _ _ (up_hunks p) C2 F T). cbn [bind]. unfold recreate_header, bare_text, bare_head.
  rewrite N1, N2, N5, N6, N7, N8. cbn [concat app]. f_equal. rewrite <- !app_assoc. cbn [app]. repeat (rewrite <- ?app_assoc; cbn [app]). reflexivity.
Qed.
Lemma bare_list ps ms : Forall2 patch_is ps ms -> Forall lines_terminated ps -> recreate_all ms = Ok (concat (concat (map bare_text ps))).
Proof.
  induction 1 as [|p m ps ms H F IH]; intros R; [reflexivity|]. inversion_clear R as [|? ? R1 R2].
  cbn [recreate_all map concat]. rewrite (bare_recreated p m H R1). cbn [bind]. rewrite IH by assumption. cbn [bind]. now rewrite concat_app.
Qed.
Lemma bare_full p : up_stamp1 p <> [] -> up_stamp2 p <> [] -> bare_text p = patch_text (rewritten p).
Proof.
  intros S1 S2. unfold bare_text, patch_text, rewritten, bare_head, heading_text. cbn [up_before up_old up_new up_stamp1 up_stamp2 up_more1 up_more2 up_hunks app].
  destruct (up_stamp1 p); [congruence|]. destruct (up_stamp2 p); [congruence|]. rewrite !app_nil_r. reflexivity.
Qed.
(** A heading without time stamp does not match. *)
Lemma bare_none mark n : ~ In TAB n -> full_match (unified_header mark) (bare_head mark n []) = None.
Proof.
  intros NT. apply no_header_line. intros p t H. unfold bare_head in H. cbn [app] in H.
  assert (K : forall q x, ~ In TAB q -> n ++ [TAB; NL] = q ++ TAB :: x -> x = [NL]).
  { intros q x NQ E. revert q NQ E. clear H. induction n as [|c n IH]; intros q NQ E; cbn in E.
    - destruct q as [|d q]; cbn in E; [congruence|]. injection E as E1 E2. exfalso. apply NQ. now left.
    - destruct q as [|d q]; cbn in E; injection E as E1 E2; [exfalso; apply NT; now left|].
      apply (IH ltac:(intros I; apply NT; now right) q); [intros I; apply NQ; now right|exact E2]. }
  remember (lit mark ++ n ++ [TAB; NL]) as w eqn:EW. clear - H EW K NT.
  destruct H as [q Q1 Q2|q u Q1 Q2 Q3 Q4|q u x Q1 Q2 Q3 Q4 Q5]; symmetry in EW; apply app_inv_head in EW.
  - apply Q2. assert (I : In TAB (q ++ [NL])) by (rewrite <- EW; apply in_or_app; right; now left).
    apply in_app_or in I as [I|[I|[]]]; [exact I|discriminate].
  - apply K in EW; [|exact Q2]. destruct u as [|c u]; [congruence|]. destruct u; discriminate.
  - apply K in EW; [|exact Q2]. destruct u as [|c u]; [congruence|]. destruct u; discriminate.
Qed.
Lemma no_tab_again n : name_ok n -> ~ In TAB (again n) /\ ~ In NL (again n).
Proof.
  intros (_ & NT & NN). split; intros I; (apply escape_in in I as [I|[I|I]]; [|discriminate|discriminate]); (apply unescape_in in I as [I|[I|I]]; [auto|discriminate|discriminate]).
Qed.
(** * The lines *)
Lemma rewritten_hunk_ok h : hunk_ok h -> uh_a h < 2147483647 /\ uh_b h < 2147483647 -> hunk_ok (rewritten_hunk h).
Proof.
  intros [A1 A2 A3 A4 A5 A6 A7] [L1 L2]. split; cbn [rewritten_hunk uh_a uh_b uh_segs uh_function]; try assumption; unfold fits_int in *; destruct (Z.eqb _ 0); lia.
Qed.
Lemma terminated_body c ls : Forall terminated ls -> body_lines c ls = map (cons c) ls.
Proof.
  unfold body_lines. induction 1 as [|l ls (t & ->) F IH]; [reflexivity|]. cbn [map concat]. rewrite IH. unfold body_line. rewrite ends_nl_app. reflexivity.
Qed.
Lemma terminated_seg s : seg_terminated s -> seg_text s = seg_clean s.
Proof. intros [A B]. destruct s; cbn [seg_text seg_clean src_lines dst_lines] in *; rewrite !terminated_body by assumption; reflexivity. Qed.
Lemma terminated_hunk h : Forall seg_terminated (uh_segs h) -> hunk_text h = hunk_clean h.
Proof.
  intros F. unfold hunk_clean. unfold hunk_text at 1. f_equal. induction F as [|s ss H F IH]; [reflexivity|]. cbn [map concat]. now rewrite IH, terminated_seg.
Qed.
Definition own (l : str) : Prop := exists c x, l = c :: x /\ In c (lit "@-+ ").
Lemma hunk_own h : Forall seg_terminated (uh_segs h) -> Forall own (hunk_text h).
Proof.
  intros F. rewrite terminated_hunk by assumption. unfold hunk_clean. constructor.
  - cbn. eexists _, _. split; [reflexivity|]. vm_compute. tauto.
  - apply Forall_concat, Forall_map. apply Forall_forall. intros s _. destruct s as [ls|r a]; cbn [seg_clean].
    + apply Forall_map, Forall_forall. intros l _. exists SP, l. split; [reflexivity|vm_compute; tauto].
    + apply Forall_app. split; apply Forall_map, Forall_forall; intros l _; [exists 45%N, l|exists 43%N, l]; (split; [reflexivity|vm_compute; tauto]).
Qed.
Lemma hunk_not_start h : Forall seg_terminated (uh_segs h) ->
  Forall (fun s => match s with Chg r _ => Forall (fun l => ~ begins "-- " l) r | Ctx _ => True end) (uh_segs h) ->
  Forall (fun l => ~ begins "--- " l) (hunk_text h).
Proof.
  intros F N. rewrite terminated_hunk by assumption. unfold hunk_clean. constructor.
  - intros [x E]. cbn in E. discriminate.
  - apply Forall_concat, Forall_map. eapply Forall_impl; [|exact N]. intros s NS. destruct s as [ls|r a]; cbn [seg_clean].
    + apply Forall_map, Forall_forall. intros l _ [x E]. discriminate.
    + apply Forall_app. split; apply Forall_map.
      * eapply Forall_impl; [|exact NS]. intros l NL' [x E]. apply NL'. exists x. apply (f_equal (@tl chr)) in E. exact E.
      * apply Forall_forall. intros l _ [x E]. discriminate.
Qed.
Definition fine (p : upatch) : Prop := patch_ok p /\ lines_terminated p /\ reusable p /\ (up_stamp1 p = [] -> no_dashes p).
Lemma bare_own p : lines_terminated p -> Forall own (bare_text p).
Proof.
  intros T. unfold bare_text. repeat constructor; try (eexists _, _; split; [reflexivity|vm_compute; tauto]).
  apply Forall_concat, Forall_map, Forall_map. eapply Forall_impl; [|exact T]. intros h H. now apply hunk_own.
Qed.
Lemma bare_whole p : fine p -> Forall whole_line (bare_text p).
Proof.
  intros ([_ O N S1 S2 H _] & T & [_ RN] & _). unfold bare_text.
  assert (HW : forall mark n t, ~ In NL (lit mark) -> ~ In NL n -> ~ In NL t -> whole_line (bare_head mark n t)).
  { intros mark n t A B C. exists (lit mark ++ n ++ TAB :: t). split; [unfold bare_head; rewrite <- !app_assoc; reflexivity|].
    apply no_nl_app; [exact A|]. apply no_nl_app; [exact B|]. intros [E|I]; [discriminate|auto]. }
  constructor; [|constructor].
  - apply HW; [now apply no_nl_lit|now apply no_tab_again|apply S1].
  - apply HW; [now apply no_nl_lit|now apply no_tab_again|apply S2].
  - apply Forall_concat, Forall_map, Forall_map. rewrite Forall_forall in *. intros h I. apply whole_hunk, rewritten_hunk_ok; auto.
Qed.
Lemma own_not_begins p l : (match lit p with c :: _ => ~ In c (lit "@-+ ") | [] => False end) -> own l -> ~ begins p l.
Proof. intros H (c & x & -> & I) [y E]. destruct (lit p) as [|d q]; [exact H|]. cbn in E. injection E as <- _. auto. Qed.
(** * Reading *)
Notation ufiles := (files (unified_head_of DiffDiff) (hunk_fuel unified_hunks) (unified_header1_of DiffDiff)).
Lemma bare_skipped p rest : fine p -> up_stamp1 p = [] -> unified_diff_header (bare_text p ++ rest) = unified_diff_header rest.
Proof.
  intros ([_ O N _ _ _ _] & T & _ & ND) S. specialize (ND S). unfold bare_text. rewrite S. cbn [app unified_diff_header]. unfold unified_header1.
  rewrite bare_none by now apply no_tab_again. 
  change (unified_header "--- ") with unified_header1. rewrite no_start_match by (intros [x X]; discriminate).
  assert (F : Forall (fun l => ~ begins "--- " l) (concat (map hunk_text (map rewritten_hunk (up_hunks p))))).
  { apply Forall_concat, Forall_map, Forall_map. unfold lines_terminated, no_dashes in *. rewrite Forall_forall in *. intros h I. apply hunk_not_start; [exact (T h I)|exact (ND h I)]. }
  induction F as [|l ls H F IH]; [reflexivity|]. cbn [app unified_diff_header]. rewrite no_start_match by assumption. exact IH.
Qed.
Lemma bare_stops p rest : fine p -> up_stamp1 p <> [] -> up_stamp2 p = [] -> exists r, unified_diff_header (bare_text p ++ rest) = Ok (None, r).
Proof.
  intros (OK & T & [[R1 R2] _] & _) S1 S2. pose proof OK as [_ O N SO _ _ _]. unfold bare_text. rewrite S2. cbn [app unified_diff_header].
  assert (M : exists c, full_match unified_header1 (bare_head "--- " (again (up_old p)) (up_stamp1 p)) = Some c).
  { destruct (header_line_match "--- " (bare_head "--- " (again (up_old p)) (up_stamp1 p)) (again (up_old p)) (up_stamp1 p)) as (c & M & _); [|eauto].
    unfold bare_head. apply hl_stamp; auto; [now apply escape_name|now apply no_tab_again|apply SO]. }
  destruct M as (c & ->). unfold unified_header2. rewrite bare_none by now apply no_tab_again. eauto.
Qed.
Lemma bare_first p rest : nonempty_next (bare_text p ++ rest) /\ no_hunk (bare_text p ++ rest).
Proof.
  unfold bare_text. cbn [app]. split.
  - intros l ls E. injection E as <- _. discriminate.
  - intros l ls E. injection E as <- _. apply header_match_hunk. intros x X. discriminate.
Qed.
Lemma ufiles_forward ps : forall fuel ms bad, Forall fine ps -> (length ps < fuel)%nat ->
  exists new rest, ufiles fuel (concat (map bare_text ps)) ms bad = Ok (ms ++ new, (bad || complaint_left ps)%bool, rest) /\
    Forall2 (fun p m => patch_is (rewritten p) m) (files_left ps) new.
Proof.
  induction ps as [|p ps IH]; intros fuel ms bad F L; (destruct fuel as [|fuel]; [cbn in L; lia|]).
  - exists [], []. cbn. rewrite app_nil_r, orb_false_r. split; [reflexivity|constructor].
  - inversion_clear F as [|? ? FP F']. cbn [map concat length files_left complaint_left] in *.
    destruct (up_stamp1 p) as [|c1 t1] eqn:S1.
    { destruct (IH (S fuel) ms bad F' ltac:(lia)) as (new & rest & E & FN). exists new, rest. split; [|exact FN].
      rewrite <- E. cbn [files]. change (unified_head_of DiffDiff) with unified_diff_header. now rewrite bare_skipped. }
    destruct (up_stamp2 p) as [|c2 t2] eqn:S2.
    { destruct (bare_stops p (concat (map bare_text ps)) FP) as (r & E); [congruence|exact S2|]. exists [], r. cbn [files].
      change (unified_head_of DiffDiff) with unified_diff_header. rewrite E. cbn [bind]. rewrite app_nil_r, orb_false_r. split; [reflexivity|constructor]. }
    assert (RW : rewritable p) by (split; [split; congruence|apply FP]).
    assert (OKr : patch_ok (rewritten p)) by (apply rewritten_ok; [apply FP|exact RW|apply FP]).
    assert (NN : nonempty_next (concat (map bare_text ps)) /\ no_hunk (concat (map bare_text ps))).
    { destruct ps as [|q ps]; [split; intros l ls E; discriminate|]. cbn [map concat]. apply bare_first. }
    destruct NN as [NE NH].
    destruct (head_forward (rewritten p) (concat (map hunk_clean (up_hunks (rewritten p))) ++ concat (map bare_text ps)) OKr) as (m0 & E0 & C0 & NM0).
    destruct (hunks_forward (up_hunks (rewritten p)) (S (length (concat (map hunk_clean (up_hunks (rewritten p))) ++ concat (map bare_text ps))))
      (concat (map bare_text ps)) m0 []) as (m & hs & EH & C & FH & W); [apply OKr|exact NE|exact NH| |exact C0|].
    { rewrite app_length. pose proof (hunks_count (up_hunks (rewritten p))). unfold str, chr in *. lia. }
    assert (PI : patch_is (rewritten p) m).
    { split; [eapply named_contents; eauto|]. exists hs. split; [exact C|exact FH]. }
    destruct (IH fuel (ms ++ [m]) (bad || bad_next_header unified_header1 (concat (map bare_text ps)))%bool F' ltac:(lia)) as (new & rest & E & FN).
    exists (m :: new), rest. split; [|constructor; assumption].
    assert (BN : bad_next_header unified_header1 (concat (map bare_text ps)) = match ps with q :: _ => match up_stamp1 q with [] => true | _ => false end | [] => false end).
    { destruct ps as [|q ps]; [reflexivity|]. inversion_clear F' as [|? ? (OKq & _ & [[RQ _] _] & _) _]. destruct OKq as [_ OQ _ SQ _ _ _].
      cbn [map concat]. unfold bare_text at 1. cbn [app bad_next_header]. unfold has_match, unified_header1.
      destruct (up_stamp1 q) as [|cq tq] eqn:Q.
      - rewrite bare_none by now apply no_tab_again. reflexivity.
      - destruct (header_line_match "--- " (bare_head "--- " (again (up_old q)) (cq :: tq)) (again (up_old q)) (cq :: tq)) as (c & M & _); [|now rewrite M].
        unfold bare_head. apply hl_stamp; [apply escape_name; assumption|now apply no_tab_again|discriminate|apply SQ]. }
    rewrite bare_full by congruence. 
    assert (TX : patch_text (rewritten p) ++ concat (map bare_text ps) = up_before (rewritten p) ++
      [heading_text (lit "--- ") (up_old (rewritten p)) (up_stamp1 (rewritten p)) (up_more1 (rewritten p));
       heading_text (lit "+++ ") (up_new (rewritten p)) (up_stamp2 (rewritten p)) (up_more2 (rewritten p))] ++
      concat (map hunk_clean (up_hunks (rewritten p))) ++ concat (map bare_text ps)).
    { unfold patch_text. rewrite <- !app_assoc. do 3 f_equal. f_equal. cbn [rewritten up_hunks]. destruct FP as (_ & T & _). unfold lines_terminated in T. clear -T.
      induction T as [|h hs H T IH]; [reflexivity|]. cbn [map concat]. rewrite IH. f_equal. now apply terminated_hunk. }
    rewrite TX. cbn [files]. change (unified_head_of DiffDiff) with unified_diff_header. unfold str, chr in *. rewrite E0. cbn [bind].
    unfold hunk_fuel at 1. unfold str, chr in *. rewrite EH. cbn [bind]. unfold append_model.
    pose proof (patch_listed _ _ OKr PI) as LI. apply Nat.ltb_lt in LI. rewrite LI. 
    change (unified_header1_of DiffDiff) with unified_header1 in *. change (unified_head_of DiffDiff) with unified_diff_header in *.
    rewrite E, BN, <- app_assoc, orb_assoc. reflexivity.
Qed.
(** C18. What is read again of every recreated diff whose lines have newlines, whichever of its files have time stamps. *)
Theorem C18_what_is_read_again :
  forall sort d o, (forall l, Permutation (sort l) l) -> doc_ok d ->
  Forall lines_terminated (ud_files d) -> Forall reusable (ud_files d) -> Forall (fun p => up_stamp1 p = [] -> no_dashes p) (ud_files d) ->
  parse sort (split_lines (doc_text d)) = Ok o ->
  exists ps text o2 ms2, Permutation ps (ud_files d) /\ Forall2 patch_is ps (the_models (po_models o)) /\
    recreate_all (the_models (po_models o)) = Ok text /\ parse sort (split_lines text) = Ok o2 /\
    po_malformed o2 = complaint_left ps /\
    Permutation (the_models (po_models o2)) ms2 /\ Forall2 (fun p m => patch_is (rewritten p) m) (files_left ps) ms2.
Proof.
  intros sort d o HP OK T RU ND E. destruct (C16_unified_documents_read_back sort d HP OK) as (o' & E' & _ & _ & ms & P & F).
  rewrite E in E'. injection E' as <-. destruct (Forall2_permuted _ _ _ _ F P) as (ps & P2 & F2).
  assert (FI : Forall fine (ud_files d)).
  { destruct OK as [OK _ _ _ _ _]. rewrite Forall_forall in *. intros p I. split; [auto|]. split; [apply T; exact I|]. split; [auto|]. apply (ND p I). }
  assert (FP : Forall fine ps) by (eapply Permutation_Forall; [symmetry; exact P2|exact FI]).
  assert (NE : ps <> []) by (intros ->; apply Permutation_nil in P2; destruct OK as [_ SO _ _ _ _]; congruence).
  exists ps, (concat (concat (map bare_text ps))).
  assert (WL : Forall whole_line (concat (map bare_text ps))).
  { apply Forall_concat, Forall_map. eapply Forall_impl; [|exact FP]. exact bare_whole. }
  assert (OW : Forall own (concat (map bare_text ps))).
  { apply Forall_concat, Forall_map. eapply Forall_impl; [|exact FP]. intros p (_ & H & _). now apply bare_own. }
  destruct (ufiles_forward ps (S (length (concat (map bare_text ps)))) [] false FP) as (new & rest & EF & FN).
  { enough (length ps <= length (concat (map bare_text ps)))%nat by lia. clear. induction ps as [|p ps IH]; cbn [map concat length]; [lia|]. rewrite app_length. unfold bare_text at 1. cbn [app length]. lia. }
  destruct (clean_same (concat (map bare_text ps))) as [n EC].
  { eapply Forall_impl; [|exact OW]. intros l. apply (own_not_begins "\ No newline"). vm_compute. intuition discriminate. }
  assert (G : determine_generator (concat (map bare_text ps)) = DiffDiff).
  { apply generator_of; (eapply Forall_impl; [|exact OW]); intros l; [apply (own_not_begins "==== ")|apply (own_not_begins "Index: ")]; vm_compute; intuition discriminate. }
  assert (FM : determine_format DiffDiff (concat (map bare_text ps)) = Unified).
  { destruct ps as [|p ps]; [congruence|]. cbn [map concat]. unfold bare_text at 1. cbn [app determine_format].
    enough (line_format DiffDiff (bare_head "--- " (again (up_old p)) (up_stamp1 p)) = Some Unified) as -> by reflexivity. reflexivity. }
  eexists _, _. split; [exact P2|]. split; [exact F2|]. split; [apply bare_list; [exact F2|eapply Forall_impl; [|exact FP]; intros p H; apply H]|].
  rewrite split_whole by exact WL. unfold parse. rewrite EC, G. cbn [bind]. unfold base_parse. rewrite FM. unfold parse_unified. rewrite EF. cbn [bind app orb].
  split; [reflexivity|]. cbn [po_malformed po_models]. split; [reflexivity|]. split; [|exact FN]. rewrite the_models_sort. apply HP.
Qed.
Print Assumptions C18_what_is_read_again.
(** A diff no file of which has both time stamps, as git writes it: nothing at all is read again, and nothing is reported. *)
Theorem C18_without_stamps_nothing_is_read_again :
  forall sort d o, (forall l, Permutation (sort l) l) -> doc_ok d ->
  Forall lines_terminated (ud_files d) -> Forall reusable (ud_files d) -> Forall (fun p => up_stamp1 p = [] -> no_dashes p) (ud_files d) ->
  Forall (fun p => up_stamp1 p = [] \/ up_stamp2 p = []) (ud_files d) ->
  parse sort (split_lines (doc_text d)) = Ok o ->
  exists text o2, length (the_models (po_models o)) = length (ud_files d) /\ recreate_all (the_models (po_models o)) = Ok text /\
    parse sort (split_lines text) = Ok o2 /\ the_models (po_models o2) = [] /\ po_malformed o2 = false.
Proof.
  intros sort d o HP OK T RU ND NO E.
  destruct (C18_what_is_read_again sort d o HP OK T RU ND E) as (ps & text & o2 & ms2 & P & F & ER & EP & M & P2 & F2).
  assert (NO' : Forall (fun p => up_stamp1 p = [] \/ up_stamp2 p = []) ps) by (eapply Permutation_Forall; [symmetry; exact P|exact NO]).
  assert (K : files_left ps = [] /\ complaint_left ps = false).
  { clear - NO'. induction NO' as [|p ps H F IH]; [split; reflexivity|]. cbn [files_left complaint_left]. destruct (up_stamp1 p); [exact IH|].
    destruct H as [H|H]; [discriminate|]. rewrite H. split; reflexivity. }
  destruct K as [K1 K2]. exists text, o2. split; [rewrite <- (PList.Forall2_len _ _ _ F); now apply Permutation_length|]. split; [exact ER|]. split; [exact EP|].
  rewrite K1 in F2. inversion F2; subst. split; [now apply Permutation_nil, Permutation_sym|]. now rewrite M, K2.
Qed.
Print Assumptions C18_without_stamps_nothing_is_read_again.

(** Three files, the second of which has no time stamps; a removed line with dashes, an empty side. *)
Definition mixed_doc : udoc := mk_ud
  [mk_up [] (lit "a") (lit "b") (lit "2020-01-01") (lit "2021-01-01") None None [mk_uh 3 3 true true [] [Ctx [nl "x"]; Chg [nl "-- y"] [nl "z"]]];
   mk_up [nl "diff --git a/c b/d"] (lit "a/c") (lit "b/d") [] [] None None [mk_uh 1 1 true true [] [Chg [nl "--y"] [nl "z"]]];
   mk_up [] (lit "e") (lit "f") (lit "2020-01-01") (lit "2021-01-01") None None [mk_uh 1 1 true true [] [Chg [] [nl "z"]]]] [].
Example C18_mixed_example : doc_ok mixed_doc /\ Forall lines_terminated (ud_files mixed_doc) /\ Forall reusable (ud_files mixed_doc) /\
  Forall (fun p => up_stamp1 p = [] -> no_dashes p) (ud_files mixed_doc) /\
  length (files_left (ud_files mixed_doc)) = 2%nat /\ complaint_left (ud_files mixed_doc) = true.
Proof.
  assert (B : forall p s, starts_with (lit p) (nl s) = false -> ~ begins p (nl s)).
  { intros p s H. intros [x E]. rewrite E in H. rewrite (proj2 (PHeaders.starts_with_app _ _) (ex_intro _ x eq_refl)) in H. discriminate. }
  assert (W : forall s, negb (existsb (N.eqb NL) (lit s)) = true -> starts_with (lit "--- ") (nl s) = false ->
     starts_with (lit "==== ") (nl s) = false -> starts_with (lit "\ No newline") (nl s) = false -> between_line (nl s)).
  { intros s H1 H2 H3 H4. split; [exists (lit s); split; [reflexivity|now apply no_nl_lit]|now apply B|now apply B|].
    intros [x E]. rewrite E in H4. vm_compute in H4. discriminate. }
  assert (N : forall s, lit s <> [] -> existsb (N.eqb TAB) (lit s) = false -> existsb (N.eqb NL) (lit s) = false -> name_ok (lit s)).
  { intros s H1 H2 H3. split; [exact H1|]. split; intros I.
    - rewrite (proj2 (existsb_exists _ _) (ex_intro _ TAB (conj I eq_refl))) in H2. discriminate.
    - rewrite (proj2 (existsb_exists _ _) (ex_intro _ NL (conj I eq_refl))) in H3. discriminate. }
  assert (T : forall s, terminated (nl s)) by (intros s; exists (lit s); reflexivity).
  assert (PO : forall p, Forall between_line (up_before p) -> name_ok (up_old p) -> name_ok (up_new p) -> stamp_ok (up_stamp1 p) (up_more1 p) ->
    stamp_ok (up_stamp2 p) (up_more2 p) -> Forall hunk_ok (up_hunks p) -> Exists (fun h => Exists (fun s => match s with Chg _ _ => True | Ctx _ => False end) (uh_segs h)) (up_hunks p) -> patch_ok p)
    by (intros; split; assumption).
  split; [|split; [|split; [|split; [|split; reflexivity]]]].
  - split.
    + repeat (apply Forall_cons || apply Forall_nil); apply PO; cbn [up_before up_old up_new up_stamp1 up_stamp2 up_more1 up_more2 up_hunks];
        try (apply N; [discriminate|reflexivity|reflexivity]).
      all: try (repeat apply Forall_cons; try apply Forall_nil; apply W; reflexivity).
      all: try (unfold stamp_ok; vm_compute; intuition discriminate).
      all: try (apply Exists_cons_hd; cbn [uh_segs]; first [apply Exists_cons_hd; exact I|apply Exists_cons_tl, Exists_cons_hd; exact I]).
      all: repeat (apply Forall_cons; [split; try (vm_compute; intuition discriminate)|]); try apply Forall_nil.
      all: cbn [uh_segs src_lines dst_lines].
      all: repeat constructor.
      all: try (apply nl_line; reflexivity).
      all: try (intros [? ?]; discriminate).
    + discriminate.
    + constructor.
    + intros p ps E. injection E as <- <-. constructor.
    + intros p ps E. injection E as <- <-. cbn [map app up_before ud_after mixed_doc]. repeat apply Forall_cons; try apply Forall_nil; intros l ls E; try discriminate E. injection E as <- _. left. eexists. reflexivity.
    + intros p ps E _. cbn [mixed_doc ud_files map concat up_before ud_after app]. repeat constructor; apply B; reflexivity.
  - repeat apply Forall_cons; try apply Forall_nil; cbn [src_lines dst_lines up_hunks uh_segs]; repeat apply Forall_cons; try apply Forall_nil; (split; cbn [src_lines dst_lines]; repeat apply Forall_cons; try apply Forall_nil; apply T).
  - repeat apply Forall_cons; try apply Forall_nil; (split; [split; vm_compute; discriminate|]); repeat apply Forall_cons; try apply Forall_nil; cbn; lia.
  - repeat apply Forall_cons; try apply Forall_nil; intros E; try discriminate E. repeat constructor; apply B; reflexivity.
Qed.
