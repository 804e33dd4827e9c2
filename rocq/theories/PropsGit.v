(** C105: the diffs that git prints. *)
From Coq Require Import String Sorted Permutation.
From Verif Require Import Base QtStr Diff Regex Patterns Parser SpecPatch SpecParse SpecText SpecUnified SpecUnstamped SpecGit
  PHeaders PFileHeads PUnified PUnifiedDoc PAnyInput PropsParse PropsText PUnifiedPrint PUnifiedRead PropsUnified PropsUnstamped PNormalDoc PropsNormal.
Local Open Scope Z_scope.

Definition git_clean (p : upatch) : list str :=
  up_before p ++ [git_head "--- " (up_old p); git_head "+++ " (up_new p)] ++ concat (map hunk_clean (up_hunks p)).
Definition gfine (p : upatch) : Prop :=
  patch_ok p /\ (up_stamp1 p = [] /\ up_stamp2 p = []) /\ (exists l ls, up_before p = l :: ls /\ begins "diff " l) /\ (has_blank (up_old p) = true -> no_dashes p).
Notation gfiles := (files (unified_head_of DiffDiff) (hunk_fuel unified_hunks) (unified_header1_of DiffDiff)).
Lemma folded_git p : gfine p -> folded (git_patch p) (git_clean p).
Proof.
  intros ([A _ _ _ _ B _] & _). unfold git_patch, git_clean. apply folded_app; [now apply folded_between|]. apply folded_app.
  - apply folded_same. repeat constructor; apply not_marker_chr; discriminate.
  - apply folded_concat. eapply Forall_impl; [|exact B]. exact folded_hunk.
Qed.
Lemma blank_head mark n : has_blank n = true -> ~ In TAB n -> full_match (unified_header mark) (git_head mark n) = None.
Proof. intros H NT. unfold git_head. rewrite H. exact (bare_none mark n NT). Qed.
Lemma plain_head mark n : has_blank n = false -> git_head mark n = heading_text (lit mark) n [] None.
Proof. intros H. unfold git_head. rewrite H. reflexivity. Qed.
Lemma git_plain p : gfine p -> has_blank (up_old p) = false -> has_blank (up_new p) = false -> git_clean p = patch_clean p.
Proof. intros (_ & [S1 S2] & _) A B. unfold git_clean, patch_clean. rewrite S1, S2. unfold git_head. rewrite A, B. reflexivity. Qed.
Lemma clean_not_start h : Forall (fun s => match s with Chg r _ => Forall (fun l => ~ begins "-- " l) r | Ctx _ => True end) (uh_segs h) ->
  Forall (fun l => ~ begins "--- " l) (hunk_clean h).
Proof.
  intros N. unfold hunk_clean. constructor.
  - intros [x E]. cbn in E. discriminate.
  - apply Forall_concat, Forall_map. eapply Forall_impl; [|exact N]. intros s NS. destruct s as [ls|r a]; cbn [seg_clean].
    + apply Forall_map, Forall_forall. intros l _ [x E]. discriminate.
    + apply Forall_app. split; apply Forall_map.
      * eapply Forall_impl; [|exact NS]. intros l NL' [x E]. apply NL'. exists x. apply (f_equal (@tl chr)) in E. exact E.
      * apply Forall_forall. intros l _ [x E]. discriminate.
Qed.
Lemma skip_lines ls rest : Forall (fun l => ~ begins "--- " l) ls -> unified_diff_header (ls ++ rest) = unified_diff_header rest.
Proof. induction 1 as [|l ls H F IH]; [reflexivity|]. cbn [app unified_diff_header]. now rewrite no_start_match. Qed.
Lemma before_lines p : patch_ok p -> Forall (fun l => ~ begins "--- " l) (up_before p).
Proof. intros [B _ _ _ _ _ _]. eapply Forall_impl; [|exact B]. intros ? []; assumption. Qed.
Lemma git_skipped p rest : gfine p -> has_blank (up_old p) = true -> unified_diff_header (git_clean p ++ rest) = unified_diff_header rest.
Proof.
  intros (OK & _ & _ & ND) H. specialize (ND H). unfold git_clean. rewrite <- !app_assoc. rewrite skip_lines by now apply before_lines.
  cbn [app unified_diff_header]. unfold unified_header1. rewrite blank_head; [|exact H|apply OK].
  change (unified_header "--- ") with unified_header1. rewrite no_start_match by (intros [x X]; discriminate).
  apply skip_lines. apply Forall_concat, Forall_map. eapply Forall_impl; [|exact ND]. exact clean_not_start.
Qed.
Lemma git_stops p rest : gfine p -> has_blank (up_old p) = false -> has_blank (up_new p) = true -> exists r, unified_diff_header (git_clean p ++ rest) = Ok (None, r).
Proof.
  intros (OK & _) H1 H2. unfold git_clean. rewrite <- !app_assoc. rewrite skip_lines by now apply before_lines. cbn [app unified_diff_header].
  rewrite plain_head by exact H1. assert (SO : stamp_ok [] None) by (repeat split; intros []).
  destruct (header_line_match "--- " _ _ _ (heading_line "--- " (up_old p) [] None (po_old _ OK) SO)) as (c & M & _).
  unfold unified_header1. rewrite M. unfold unified_header2. rewrite blank_head; [eauto|exact H2|apply OK].
Qed.
Lemma git_tail ps after : Forall gfine ps -> may_resume after -> tail_ok (concat (map git_clean ps) ++ after).
Proof.
  intros F R. destruct ps as [|p ps]; cbn [map concat app].
  - intros l ls E. left. eapply R; eauto.
  - inversion F as [|? ? (_ & _ & (b & bs & B & D) & _) _]. subst. intros l0 ls0 E. left. left. unfold git_clean in E. rewrite B in E. cbn [app] in E. injection E as <- _. exact D.
Qed.
Lemma git_forward after : Forall between_line after -> may_resume after -> forall ps fuel ms, Forall gfine ps -> (length ps < fuel)%nat ->
  exists new rest, gfiles fuel (concat (map git_clean ps) ++ after) ms false = Ok (ms ++ new, false, rest) /\ Forall2 patch_is (git_left ps) new.
Proof.
  intros BA R. induction ps as [|p ps IH]; intros fuel ms F L; (destruct fuel as [|fuel]; [cbn in L; lia|]).
  - exists [], []. rewrite app_nil_r. split; [|constructor]. cbn [map concat app files]. change (unified_head_of DiffDiff) with unified_diff_header.
    rewrite <- (app_nil_r after). rewrite skip_lines; [reflexivity|]. eapply Forall_impl; [|exact BA]. intros ? []; assumption.
  - inversion_clear F as [|? ? FP F']. cbn [map concat length git_left] in *. rewrite <- app_assoc.
    destruct (has_blank (up_old p)) eqn:B1.
    { destruct (IH (S fuel) ms F' ltac:(lia)) as (new & rest & E & FN). exists new, rest. split; [|exact FN].
      rewrite <- E. cbn [files]. change (unified_head_of DiffDiff) with unified_diff_header. now rewrite git_skipped. }
    destruct (has_blank (up_new p)) eqn:B2.
    { destruct (git_stops p (concat (map git_clean ps) ++ after) FP B1 B2) as (r & E). exists [], r. cbn [files].
      change (unified_head_of DiffDiff) with unified_diff_header. rewrite E. cbn [bind]. rewrite app_nil_r. split; [reflexivity|constructor]. }
    rewrite git_plain by assumption. destruct FP as (OKp & _).
    destruct (tail_no_hunk _ (git_tail ps after F' R)) as (NE & NH & BN).
    destruct (head_forward p (concat (map hunk_clean (up_hunks p)) ++ concat (map git_clean ps) ++ after) OKp) as (m0 & E0 & C0 & NM0).
    destruct (hunks_forward (up_hunks p) (S (length (concat (map hunk_clean (up_hunks p)) ++ concat (map git_clean ps) ++ after)))
      (concat (map git_clean ps) ++ after) m0 []) as (m & hs & EH & C & FH & W); [destruct OKp; assumption|exact NE|exact NH| |exact C0|].
    { rewrite app_length. pose proof (hunks_count (up_hunks p)). unfold str, chr in *. lia. }
    assert (PI : patch_is p m).
    { split; [eapply named_contents; eauto|]. exists hs. split; [exact C|exact FH]. }
    destruct (IH fuel (ms ++ [m]) F' ltac:(lia)) as (new & rest & E & FN). exists (m :: new), rest. split; [|constructor; assumption].
    cbn [files]. change (unified_head_of DiffDiff) with unified_diff_header in *. rewrite patch_cleaned, <- !app_assoc.
    match goal with |- context [unified_diff_header ?x] => replace (unified_diff_header x) with
      (@Ok (option dmodel * list str) (Some m0, concat (map hunk_clean (up_hunks p)) ++ concat (map git_clean ps) ++ after))
      by (rewrite <- E0; f_equal; cbn [app]; rewrite ?app_nil_r; reflexivity) end.
    cbn [bind]. unfold hunk_fuel at 1. rewrite EH. cbn [bind]. change (unified_header1_of DiffDiff) with unified_header1 in *. rewrite BN. cbn [orb].
    unfold append_model. pose proof (patch_listed _ _ OKp PI) as LI. apply Nat.ltb_lt in LI. rewrite LI.
    rewrite E, <- app_assoc. reflexivity.
Qed.
Lemma git_in d l : In l (git_lines d) -> In l (concat (map up_before (ud_files d)) ++ ud_after d) \/ exists c x, l = c :: x /\ In c (lit " +-@\").
Proof.
  unfold git_lines. intros I. apply in_app_or in I as [I|I]; [|left; apply in_or_app; auto].
  apply in_concat in I as (ls & I1 & I2). apply in_map_iff in I1 as (p & <- & I1). unfold git_patch in I2.
  apply in_app_or in I2 as [I2|I2].
  { left. apply in_or_app. left. apply in_concat. exists (up_before p). split; [now apply in_map|exact I2]. }
  cbn [app] in I2. destruct I2 as [<-|[<-|I2]]; [right; eexists _, _; split; [reflexivity|vm_compute; tauto]|right; eexists _, _; split; [reflexivity|vm_compute; tauto]|].
  assert (J : In l (doc_lines (mk_ud [mk_up [] [] [] [] [] None None (up_hunks p)] []))).
  { unfold doc_lines. cbn [ud_files ud_after map concat]. unfold patch_text. cbn [up_before up_hunks app]. rewrite !app_nil_r. right. right. exact I2. }
  apply in_doc in J as [(q & [<-|[]] & [])|[[]|J]]. right. exact J.
Qed.
Lemma git_whole d : Forall gfine (ud_files d) -> Forall between_line (ud_after d) -> Forall whole_line (git_lines d).
Proof.
  intros F A. assert (BW : forall ls, Forall between_line ls -> Forall whole_line ls) by (intros ls H; eapply Forall_impl; [|exact H]; intros ? []; assumption).
  unfold git_lines. apply Forall_app. split; [|now apply BW]. apply Forall_concat, Forall_map. eapply Forall_impl; [|exact F].
  intros p ([B O N _ _ H _] & _). unfold git_patch. apply Forall_app. split; [now apply BW|].
  assert (HW : forall mark n, ~ In NL (lit mark) -> ~ In NL n -> whole_line (git_head mark n)).
  { intros mark n X Y. exists (lit mark ++ n ++ (if has_blank n then [TAB] else [])). split; [unfold git_head; rewrite <- !app_assoc; reflexivity|].
    apply no_nl_app; [exact X|]. apply no_nl_app; [exact Y|]. destruct (has_blank n); [intros [Q|[]]; discriminate|intros []]. }
  constructor; [|constructor].
  - apply HW; [now apply no_nl_lit|apply O].
  - apply HW; [now apply no_nl_lit|apply N].
  - apply Forall_concat, Forall_map. eapply Forall_impl; [|exact H]. exact whole_hunk.
Qed.
(** Every diff that git prints (any files, hunks and lines, with or without a newline at the end of a file): what is read without a complaint are the files of
    [git_left], each exactly as printed. *)
Theorem C105_git_diffs_partial :
  forall sort d, (forall l, Permutation (sort l) l) -> git_ok d -> Forall (fun p => has_blank (up_old p) = true -> no_dashes p) (ud_files d) ->
  exists o, parse sort (split_lines (git_text d)) = Ok o /\ po_malformed o = false /\ po_format o = Unified /\
    exists ms, Permutation (the_models (po_models o)) ms /\ Forall2 patch_is (git_left (ud_files d)) ms.
Proof.
  intros sort d HP [OK SO BA Q ST BE RE IX] ND.
  assert (F : Forall gfine (ud_files d)).
  { rewrite Forall_forall in *. intros p I. split; [auto|]. split; [auto|]. split; auto. }
  unfold git_text. rewrite split_whole by now apply git_whole.
  assert (G : determine_generator (git_lines d) = DiffDiff).
  { apply generator_plain. apply Forall_forall. intros l I. apply git_in in I as [I|(c & x & -> & I)].
    - split; [|rewrite Forall_forall in IX; now apply IX]. apply in_app_or in I as [I|I].
      + apply in_concat in I as (ls & I1 & I2). apply in_map_iff in I1 as (p & <- & I1). rewrite Forall_forall in OK. destruct (OK p I1) as [B _ _ _ _ _ _].
        rewrite Forall_forall in B. now destruct (B l I2).
      + rewrite Forall_forall in BA. now destruct (BA l I).
    - split; intros [y E]; injection E as -> _; vm_compute in I; intuition discriminate. }
  pose (clean := concat (map git_clean (ud_files d)) ++ ud_after d).
  assert (FO : folded (git_lines d) clean).
  { unfold git_lines, clean. apply folded_app; [|now apply folded_between]. apply folded_concat. eapply Forall_impl; [|exact F]. exact folded_git. }
  destruct (clean_folded _ _ FO [] 0) as [n EC].
  assert (EF : determine_format DiffDiff clean = Unified).
  { unfold clean. clear - SO OK Q. destruct (ud_files d) as [|p ps]; [congruence|]. specialize (Q p ps eq_refl). inversion_clear OK as [|? ? [B _ _ _ _ _ _] _].
    cbn [map concat]. unfold git_clean at 1. rewrite <- !app_assoc. induction B as [|l ls [_ HL _ _] B IH].
    - cbn [app determine_format]. enough (line_format DiffDiff (git_head "--- " (up_old p)) = Some Unified) as -> by reflexivity. reflexivity.
    - inversion_clear Q as [|? ? Ql Q']. cbn [app determine_format]. rewrite quiet_format by (try discriminate; assumption). now apply IH. }
  destruct (git_forward (ud_after d) BA RE (ud_files d) (S (length clean)) [] F) as (new & rest & E & FN).
  { unfold clean. rewrite app_length. enough (forall ps, Forall gfine ps -> (length ps <= length (concat (map git_clean ps)))%nat) as K by (specialize (K _ F); unfold str, chr in *; lia).
    clear. induction 1 as [|p l H F IH]; cbn [map concat length]; [lia|]. rewrite app_length. unfold git_clean at 1. rewrite !app_length. cbn [length]. lia. }
  unfold parse. unfold clean_up_crap. rewrite EC, G. cbn [bind rev app]. unfold base_parse. rewrite EF.
  unfold parse_unified. fold clean in E. rewrite E. cbn [bind app].
  eexists. split; [reflexivity|]. cbn [po_malformed po_format po_models]. split; [reflexivity|]. split; [reflexivity|].
  exists new. split; [|exact FN]. rewrite the_models_sort. apply HP.
Qed.
Print Assumptions C105_git_diffs_partial.
(** So all files are read if no name has a blank. *)
Theorem C105_names_without_blanks :
  forall sort d, (forall l, Permutation (sort l) l) -> git_ok d -> Forall (fun p => ~ In SP (up_old p) /\ ~ In SP (up_new p)) (ud_files d) ->
  exists o, parse sort (split_lines (git_text d)) = Ok o /\ po_malformed o = false /\
    exists ms, Permutation (the_models (po_models o)) ms /\ Forall2 patch_is (ud_files d) ms.
Proof.
  assert (NB : forall n, ~ In SP n -> has_blank n = false).
  { intros n H. rewrite <- not_true_iff_false. intros K. apply existsb_exists in K as (c & I & E). apply N.eqb_eq in E. subst c. auto. }
  intros sort d HP OK F. destruct (C105_git_diffs_partial sort d HP OK) as (o & E & M & _ & ms & P & FM).
  { eapply Forall_impl; [|exact F]. intros p [H _] K. rewrite NB in K by exact H. discriminate K. }
  exists o. split; [exact E|]. split; [exact M|]. exists ms. split; [exact P|]. enough (git_left (ud_files d) = ud_files d) as X by now rewrite X in FM.
  clear -F NB. induction F as [|p ps [H1 H2] F IH]; [reflexivity|]. cbn [git_left]. now rewrite (NB _ H1), (NB _ H2), IH.
Qed.
Print Assumptions C105_names_without_blanks.
(** And all files are read only if no name has a blank. *)
Theorem C105_all_files_exactly :
  forall sort d o, (forall l, Permutation (sort l) l) -> git_ok d -> Forall (fun p => has_blank (up_old p) = true -> no_dashes p) (ud_files d) ->
  parse sort (split_lines (git_text d)) = Ok o ->
  (length (the_models (po_models o)) = length (ud_files d) <-> Forall (fun p => ~ In SP (up_old p) /\ ~ In SP (up_new p)) (ud_files d)).
Proof.
  assert (NB : forall n, has_blank n = false <-> ~ In SP n).
  { intros n. rewrite <- not_true_iff_false. split; intros H K; apply H.
    - apply existsb_exists. exists SP. auto.
    - apply existsb_exists in K as (c & I & E). apply N.eqb_eq in E. now subst c. }
  intros sort d o HP OK ND E. destruct (C105_git_diffs_partial sort d HP OK ND) as (o' & E' & _ & _ & ms & P & FM).
  rewrite E in E'. injection E' as <-. rewrite (Permutation_length P), <- (PList.Forall2_len _ _ _ FM).
  clear -NB. assert (LE : forall ps, (length (git_left ps) <= length ps)%nat).
  { induction ps as [|p ps IH]; cbn [git_left length]; [lia|]. destruct (has_blank (up_old p)); [lia|]. destruct (has_blank (up_new p)); cbn [length]; lia. }
  induction (ud_files d) as [|p ps IH]; [split; [constructor|reflexivity]|].
  cbn [git_left length]. specialize (LE ps). destruct (has_blank (up_old p)) eqn:B1.
  { split; [lia|]. intros F. inversion_clear F as [|? ? [H _] _]. apply NB in H. congruence. }
  destruct (has_blank (up_new p)) eqn:B2.
  { split; [cbn [length]; lia|]. intros F. inversion_clear F as [|? ? [_ H] _]. apply NB in H. congruence. }
  apply NB in B1. apply NB in B2. cbn [length]. split.
  - intros L. constructor; [now split|]. apply IH. lia.
  - intros F. inversion_clear F as [|? ? _ F']. f_equal. now apply IH.
Qed.
Print Assumptions C105_all_files_exactly.

Definition git_file (old new : string) (a : Z) (s : list seg) : upatch :=
  mk_up [nl ("diff --git " ++ old ++ " " ++ new); nl "index 587be6b..c1b0730 100644"] (lit old) (lit new) [] [] None None [mk_uh a a true true [] s].
(** A changed file with a blank in its name, then one without. *)
Definition old_blank : udoc := mk_ud [git_file "a/x y" "b/x y" 1 [Chg [nl "p"] [nl "q"]]; git_file "a/c" "b/c" 3 [Ctx [nl "x"]; Chg [nl "y"] []]] [].
(** A new file with a blank in its name, then another one without. *)
Definition new_blank : udoc := mk_ud [git_file "/dev/null" "b/x y" 1 [Chg [] [nl "q"]]; git_file "a/c" "b/c" 3 [Ctx [nl "x"]; Chg [nl "y"] []]] [].
(** A quoted name, a new file, a file that does not end in a newline, something after the last file. *)
Definition git_doc : udoc := mk_ud [git_file "a/c" "b/c" 3 [Ctx [nl "x"]; Chg [nl "y"] []]; git_file "/dev/null" "b/d" 1 [Chg [] [nl "q"; lit "r"]]]
  [nl "diff --git a/e b/e"; nl "Binary files a/e and b/e differ"].
Example C105_example : git_ok old_blank /\ git_ok new_blank /\ git_ok git_doc /\
  Forall (fun p => has_blank (up_old p) = true -> no_dashes p) (ud_files old_blank ++ ud_files new_blank) /\
  Forall (fun p => ~ In SP (up_old p) /\ ~ In SP (up_new p)) (ud_files git_doc) /\
  length (git_left (ud_files old_blank)) = 1%nat /\ git_left (ud_files new_blank) = [].
Proof.
  assert (B : forall p s, starts_with (lit p) (nl s) = false -> ~ begins p (nl s)).
  { intros p s H. intros [x E]. rewrite E in H. rewrite (proj2 (PHeaders.starts_with_app _ _) (ex_intro _ x eq_refl)) in H. discriminate. }
  assert (W : forall s, negb (existsb (N.eqb NL) (lit s)) = true -> starts_with (lit "--- ") (nl s) = false ->
     starts_with (lit "==== ") (nl s) = false -> starts_with (lit "\ No newline") (nl s) = false -> between_line (nl s)).
  { intros s H1 H2 H3 H4. split; [exists (lit s); split; [reflexivity|now apply no_nl_lit]|now apply B|now apply B|].
    intros [x E]. rewrite E in H4. vm_compute in H4. discriminate. }
  assert (N : forall s, lit s <> [] -> existsb (N.eqb TAB) (lit s) = false -> existsb (N.eqb NL) (lit s) = false -> name_ok (lit s)).
  { intros s H1 H2 H3. split; [exact H1|]. split; intros I.
    - rewrite (proj2 (existsb_exists _ _) (ex_intro _ TAB (conj I eq_refl))) in H2. discriminate.
    - rewrite (proj2 (existsb_exists _ _) (ex_intro _ NL (conj I eq_refl))) in H3. discriminate. }
  assert (NS : forall s, existsb (N.eqb SP) (lit s) = false -> ~ In SP (lit s)).
  { intros s H I. rewrite (proj2 (existsb_exists _ _) (ex_intro _ SP (conj I eq_refl))) in H. discriminate. }
  assert (PO : forall p, Forall between_line (up_before p) -> name_ok (up_old p) -> name_ok (up_new p) -> stamp_ok (up_stamp1 p) (up_more1 p) ->
    stamp_ok (up_stamp2 p) (up_more2 p) -> Forall hunk_ok (up_hunks p) -> Exists (fun h => Exists (fun s => match s with Chg _ _ => True | Ctx _ => False end) (uh_segs h)) (up_hunks p) -> patch_ok p)
    by (intros; split; assumption).
  assert (QU : forall s c d x, nl s = c :: d :: x -> starts_with (lit "*** ") (nl s) = false -> is_digit c = false -> is_digit d = false -> quiet (nl s)).
  { intros s c d x E H1 H2 H3. split; [now apply B|]. rewrite E. split; [intros ? ? X; injection X as <- <-; exact H2|intros ? ? ? X _; injection X as <- <- <-; exact H3]. }
  split; [|split; [|split; [|split; [|split; [|split; reflexivity]]]]].
  1-3: split;
    [ repeat (apply Forall_cons || apply Forall_nil); (apply PO; cbn [up_before up_old up_new up_stamp1 up_stamp2 up_more1 up_more2 up_hunks git_file];
        [ repeat apply Forall_cons; try apply Forall_nil; apply W; reflexivity
        | apply N; [discriminate|reflexivity|reflexivity]
        | apply N; [discriminate|reflexivity|reflexivity]
        | unfold stamp_ok; vm_compute; intuition discriminate
        | unfold stamp_ok; vm_compute; intuition discriminate
        | apply Forall_cons; [|apply Forall_nil]; split; try (vm_compute; intuition discriminate); cbn [uh_segs src_lines dst_lines]; repeat constructor; cbn [src_lines dst_lines];
          try (apply nl_line; reflexivity); try (intros [? ?]; discriminate);
          try (exists (lit "r"); vm_compute; intuition discriminate)
        | apply Exists_cons_hd; cbn [uh_segs]; first [apply Exists_cons_hd; exact I|apply Exists_cons_tl, Exists_cons_hd; exact I] ])
    | discriminate
    | repeat apply Forall_cons; try apply Forall_nil; apply W; reflexivity
    | intros p ps E; injection E as <- <-; repeat apply Forall_cons; try apply Forall_nil; eapply QU; reflexivity
    | repeat apply Forall_cons; try apply Forall_nil; split; reflexivity
    | repeat apply Forall_cons; try apply Forall_nil; eexists _, _; (split; [reflexivity|]); eexists; reflexivity
    | intros l ls E; try discriminate E; injection E as <- _; left; eexists; reflexivity
    | repeat apply Forall_cons; try apply Forall_nil; apply B; reflexivity ].
  - cbn [app git_doc old_blank new_blank ud_files].
    repeat apply Forall_cons; try apply Forall_nil; intros E; try discriminate E. repeat constructor; apply B; reflexivity.
  - repeat apply Forall_cons; try apply Forall_nil; split; apply NS; reflexivity.
Qed.
(** With a blank in a name, files are lost without a complaint: one, or all that follow. *)
Theorem C105_git_diffs_refuted :
  summary (parse (fun l => l) (split_lines (git_text old_blank))) = Some ([[(Unchanged, [nl "x"], [nl "x"]); (Delete, [nl "y"], [])]], false) /\
  summary (parse (fun l => l) (split_lines (git_text new_blank))) = Some ([], false) /\
  git_ok old_blank /\ git_ok new_blank.
Proof. split; [vm_compute; reflexivity|]. split; [vm_compute; reflexivity|]. destruct C105_example as (A & B & _). now split. Qed.
Print Assumptions C105_git_diffs_refuted.
