(** Reading printed unified documents back: hunks, headers, files, format. *)
From Coq Require Import String Sorted Permutation.
From Verif Require Import Base QtStr Lev Diff Regex Patterns Parser SpecEdit SpecInline SpecPatch SpecRegex SpecParse SpecText SpecUnified
  PRegex PRegexLang PLev PHistory PEditLines PParse PUnified PHeaders PFileHeads PUnifiedDoc PFuel PAnyInput PDefined PropsParse PropsText PUnifiedPrint.
Local Open Scope Z_scope.

Definition nonempty_next (rest : list str) : Prop := forall l ls, rest = l :: ls -> l <> [].
Lemma seg_is_linked s d : seg_is s d -> seg_is s (linked d).
Proof.
  unfold seg_is. destruct (linked_fields d) as (-> & _ & _ & _ & -> & ->). auto.
Qed.
Lemma segs_length ss : Forall seg_ok ss -> (length ss <= length (concat (map seg_clean ss)))%nat.
Proof.
  induction 1 as [|s ss (_ & _ & NB) H IH]; cbn; [lia|]. rewrite app_length.
  enough (1 <= length (seg_clean s))%nat by lia. destruct s as [[|l ls]|[|x r] [|y a]]; cbn in *; try tauto; try lia.
Qed.
Lemma hunk_forward h rest m hs : hunk_ok h -> nonempty_next rest -> contents m hs ->
  exists c m' p, full_match unified_hunk_header (hd [] (hunk_text h)) = Some c /\
    unified_hunk_body c (concat (map seg_clean (uh_segs h)) ++ rest) m = Ok (m', rest) /\
    contents m' (hs ++ [p]) /\ hunk_is h p /\
    (forall st, with_contents m' [] [] st = with_contents m [] [] st).
Proof.
  intros [FA FB NA NB HF HS HM] NE HC.
  pose proof (counts_nonneg (uh_segs h)) as [CN1 CN2].
  destruct (side_text_shape (uh_omit1 h) (uh_a h) (src_count (uh_segs h)) FA) as (n1 & w1 & E1 & D1 & W1 & S1); [lia|].
  destruct (side_text_shape (uh_omit2 h) (uh_b h) (dst_count (uh_segs h)) FB) as (n2 & w2 & E2 & D2 & W2 & S2); [lia|].
  destruct (header_forward n1 w1 n2 w2 (uh_function h) D1 D2 W1 W2 HF) as (c & M & C1 & C3 & C4 & C6 & C7).
  destruct (body_forward (uh_segs h) (S (length (concat (map seg_clean (uh_segs h)) ++ rest))) (uh_a h) (uh_b h) rest HS HM)
    as (ds & EL & F).
  { rewrite app_length. pose proof (segs_length _ HS). lia. }
  { exact NE. }
  exists c.
  exists (with_contents m
        (dm_hunks m ++ [mk_hunk (uh_a h) (uh_b h) (uh_function h) HNormal (seq (length (dm_store m)) (length ds))])
        (dm_diffs m ++ ids_from (length (dm_store m)) ds) (dm_store m ++ map linked ds)).
  exists (mk_hunk (uh_a h) (uh_b h) (uh_function h) HNormal (seq (length (dm_store m)) (length ds)), map linked ds).
  split; [cbn [hunk_text hd]; rewrite E1, E2; etransitivity; [|exact M]; destruct (uh_function h); reflexivity|]. split.
  { unfold unified_hunk_body. rewrite C1, C3, C4, C6, C7, S1, S2, EL. cbn [bind]. rewrite add_parsed_hunk_ok. reflexivity. }
  split; [now apply contents_add|]. split; [|reflexivity].
  apply unified_body_ok in EL as (_ & CT & _ & RW). cbn [uc_a uc_b] in CT.
  unfold hunk_is. cbn [fst snd h_src h_dst h_function h_type]. repeat (split; [reflexivity|]). split; [|split].
  - clear -F. induction F; cbn; constructor; auto using seg_is_linked.
  - now apply linked_contiguous.
  - apply Forall_map. eapply Forall_impl; [|exact RW]. exact linked_pristine.
Qed.
Lemma hunk_clean_nonempty us rest : nonempty_next rest -> nonempty_next (concat (map hunk_clean us) ++ rest).
Proof.
  intros NE. destruct us as [|h us]; [exact NE|]. intros l ls E. cbn [map concat hunk_clean hunk_text hd app] in E.
  injection E as <- _. discriminate.
Qed.
Definition no_hunk (rest : list str) : Prop := forall l ls, rest = l :: ls -> full_match unified_hunk_header l = None.
Lemma hunks_forward us : forall fuel rest m hs, Forall hunk_ok us -> nonempty_next rest -> no_hunk rest ->
  (length us < fuel)%nat -> contents m hs ->
  exists m' ps, unified_hunks fuel (concat (map hunk_clean us) ++ rest) m = Ok (m', rest) /\
    contents m' (hs ++ ps) /\ Forall2 hunk_is us ps /\
    (forall st, with_contents m' [] [] st = with_contents m [] [] st).
Proof.
  induction us as [|h us IH]; intros fuel rest m hs OK NE NH L HC; (destruct fuel as [|fuel]; [cbn in L; lia|]); cbn [unified_hunks].
  - exists m, []. rewrite app_nil_r. split; [|split; [exact HC|split; [constructor|reflexivity]]].
    cbn [map concat app]. unfold unified_hunk_header_at. destruct rest as [|l ls]; [reflexivity|].
    rewrite (NH l ls eq_refl). reflexivity.
  - inversion_clear OK as [|? ? OKh OK']. cbn [length] in L.
    destruct (hunk_forward h (concat (map hunk_clean us) ++ rest) m hs OKh) as (c & m1 & p & M & B & C1 & HI & W1).
    { now apply hunk_clean_nonempty. }
    { exact HC. }
    destruct (IH fuel rest m1 (hs ++ [p]) OK' NE NH ltac:(lia) C1) as (m' & ps & E & C2 & F & W2).
    exists m', (p :: ps). split.
    + cbn [map concat]. unfold hunk_clean at 1. cbn [app unified_hunk_header_at]. rewrite <- app_assoc. rewrite M.
      match goal with |- context [unified_hunk_body c ?x m] => change (unified_hunk_body c x m) with
        (unified_hunk_body c (concat (map seg_clean (uh_segs h)) ++ concat (map hunk_clean us) ++ rest) m) end.
      rewrite B. exact E.
    + rewrite <- app_assoc in C2. split; [exact C2|]. split; [constructor; assumption|].
      intros st. rewrite W2. apply W1.
Qed.
(** * File headers *)
Lemma heading_line mark n t x : name_ok n -> stamp_ok t x -> header_line (lit mark) (heading_text (lit mark) n t x) n t.
Proof.
  intros (N1 & N2 & N3) (T1 & T2 & T3). unfold heading_text. destruct t as [|c t]; [now apply hl_name|].
  destruct x as [x|].
  - replace ((TAB :: (c :: t) ++ TAB :: x) ++ [NL]) with (TAB :: (c :: t) ++ TAB :: x ++ [NL]) by (cbn; rewrite <- app_assoc; reflexivity).
    apply hl_more; auto. discriminate.
  - rewrite app_nil_r. apply hl_stamp; auto. discriminate.
Qed.
Lemma not_start l : ~ begins "--- " l -> ~ unified_start l.
Proof. intros N (p & t & H). apply N. destruct H; eexists; reflexivity. Qed.
Lemma no_start_match l : ~ begins "--- " l -> full_match unified_header1 l = None.
Proof. intros N. apply no_header_line. intros p t H. apply (not_start l N). now exists p, t. Qed.
Lemma head_forward p rest : patch_ok p ->
  exists m, unified_diff_header (up_before p ++
    [heading_text (lit "--- ") (up_old p) (up_stamp1 p) (up_more1 p);
     heading_text (lit "+++ ") (up_new p) (up_stamp2 p) (up_more2 p)] ++ rest) = Ok (Some m, rest) /\
    contents m [] /\ named m (unescape_path (up_old p)) (unescape_path (up_new p)) (up_stamp1 p) (up_stamp2 p).
Proof.
  intros [B O N S1 S2 _ _].
  destruct (header_line_match "--- " _ _ _ (heading_line "--- " _ _ _ O S1)) as (c1 & M1 & C11 & C12 & C14).
  destruct (header_line_match "+++ " _ _ _ (heading_line "+++ " _ _ _ N S2)) as (c2 & M2 & C21 & C22 & C24).
  destruct (new_model_named (unescape_path (up_old p)) (unescape_path (up_new p)) _ eq_refl)
        as (A1 & A2 & A3 & A4 & A5 & A6 & A7 & A8 & A9).
  eexists. split; [|split].
  - induction B as [|l ls HL B IH].
    + cbn [app unified_diff_header]. unfold unified_header1. rewrite M1. unfold unified_header2. rewrite M2, C11, C12, C14, C21, C22, C24. reflexivity.
    + cbn [app unified_diff_header]. rewrite no_start_match by (destruct HL; assumption). exact IH.
  - destruct A5 as [[B1 B2 B3 B4 B6 B7] B5]. split; [split|]; auto.
  - split; auto.
Qed.
(** * Files *)
Lemma patch_listed p m : patch_ok p -> patch_is p m -> (0 < length (dm_diffs m))%nat.
Proof.
  intros [_ _ _ _ _ _ CH] (_ & hs & [[H1 H2 H3 H4 _ _] H5] & F).
  enough (filter (fun d => negb (is_context d)) (concat (map snd hs)) <> []).
  { destruct (dm_diffs m); [|cbn; lia]. cbn in H3. injection H3 as E. congruence. }
  clear -CH F. induction F as [|u q us qs HU F IH]; [inversion CH|]. cbn [map concat]. rewrite filter_app.
  inversion CH as [? ? C|? ? C]; subst.
  - destruct HU as (_ & _ & _ & _ & FS & _ & _). intros E. apply app_eq_nil in E as [E _]. clear -C FS E.
    induction FS as [|s d ss ds HS FS IH]; [inversion C|]. cbn in E.
    inversion C as [? ? C'|? ? C']; subst.
    + destruct s as [|r a]; [destruct C'|]. destruct HS as (_ & _ & T). unfold is_context in E.
      destruct r, a; rewrite T in E; discriminate.
    + apply IH; [exact C'|]. destruct (negb (is_context d)); [discriminate|exact E].
  - intros E. apply app_eq_nil in E as [_ E]. now apply IH.
Qed.
Lemma whole_nonempty l : whole_line l -> l <> [].
Proof. intros (t & -> & _). destruct t; discriminate. Qed.
Lemma header_match_hunk l : (forall x, l <> lit "@@ -" ++ x) -> full_match unified_hunk_header l = None.
Proof.
  intros N. destruct (full_match unified_hunk_header l) as [c|] eqn:E; [|reflexivity].
  apply unified_hunk_header_inv in E as (n1 & k1 & n2 & k2 & sep & f & -> & _). exfalso. eapply N. reflexivity.
Qed.
(** What follows the hunks of a file. *)
Definition tail_ok (ls : list str) : Prop := forall l ls', ls = l :: ls' ->
  resumes l \/ exists n t x, l = heading_text (lit "--- ") n t x /\ name_ok n /\ stamp_ok t x.
Lemma tail_no_hunk ls : tail_ok ls -> nonempty_next ls /\ no_hunk ls /\ bad_next_header unified_header1 ls = false.
Proof.
  intros T. split; [|split].
  - intros l ls' E ->. destruct (T _ _ E) as [[H|[H|H]]|(n & t & x & H & _)]; try (destruct H; discriminate); discriminate.
  - intros l ls' E. apply header_match_hunk. intros y ->.
    destruct (T _ _ E) as [[H|[H|H]]|(n & t & x & H & _)]; try (destruct H; discriminate); discriminate.
  - destruct ls as [|l ls]; [reflexivity|]. unfold bad_next_header. destruct (T l ls eq_refl) as [[H|[H|H]]|(n & t & x & -> & N & S)].
    + apply starts_with_app in H. rewrite H. now rewrite !andb_false_r.
    + apply starts_with_app in H. rewrite H. now rewrite !andb_false_r.
    + apply starts_with_app in H. rewrite H. now rewrite !andb_false_r.
    + destruct (header_line_match "--- " _ _ _ (heading_line "--- " _ _ _ N S)) as (c1 & M1 & _).
      unfold has_match, unified_header1. rewrite M1. reflexivity.
Qed.
Lemma patch_cleaned p : patch_clean p = up_before p ++
  [heading_text (lit "--- ") (up_old p) (up_stamp1 p) (up_more1 p);
   heading_text (lit "+++ ") (up_new p) (up_stamp2 p) (up_more2 p)] ++
  concat (map hunk_clean (up_hunks p)).
Proof. reflexivity. Qed.
Definition may_resume (ls : list str) : Prop := forall l ls', ls = l :: ls' -> resumes l.
Lemma tail_of ps after : Forall patch_ok ps -> Forall may_resume (map up_before ps ++ [after]) ->
  tail_ok (concat (map patch_clean ps) ++ after).
Proof.
  intros OK R. destruct ps as [|p ps].
  - cbn in *. inversion_clear R. intros l ls E. left. eapply H; eauto.
  - inversion_clear OK as [|? ? [_ O _ S _ _ _] _]. cbn in R. inversion_clear R as [|? ? R1 _].
    cbn [map concat]. rewrite patch_cleaned. intros l ls E. destruct (up_before p) as [|b bs].
    + right. cbn [app] in E. injection E as <- _. eauto 8.
    + left. cbn [app] in E. injection E as <- _. eapply R1. reflexivity.
Qed.
Lemma hunks_count us : (length us <= length (concat (map hunk_clean us)))%nat.
Proof. induction us; cbn; [lia|]. rewrite app_length. lia. Qed.
Lemma files_forward g ps : g <> Perforce -> forall fuel after ms,
  Forall patch_ok ps -> Forall between_line after -> Forall may_resume (tl (map up_before ps ++ [after])) ->
  (length ps < fuel)%nat ->
  exists new rest, files (unified_head_of g) (hunk_fuel unified_hunks) (unified_header1_of g) fuel
      (concat (map patch_clean ps) ++ after) ms false = Ok (ms ++ new, false, rest) /\ Forall2 patch_is ps new.
Proof.
  intros G. assert (HG : forall ls, unified_head_of g ls = unified_diff_header ls) by (destruct g; first [reflexivity|congruence]).
  assert (HH : unified_header1_of g = unified_header1) by (destruct g; first [reflexivity|congruence]).
  induction ps as [|p ps IH]; intros fuel after ms OK BA R L; (destruct fuel as [|fuel]; [cbn in L; lia|]); cbn [files]; rewrite HG.
  - exists [], []. rewrite app_nil_r. split; [|constructor]. cbn [map concat app].
    enough (unified_diff_header after = Ok (None, [])) as -> by reflexivity. clear -BA.
    induction BA as [|l ls [_ H _ _] BA IH]; [reflexivity|]. cbn [unified_diff_header]. rewrite no_start_match by assumption. exact IH.
  - inversion_clear OK as [|? ? OKp OK']. cbn [map tl] in R. cbn [app tl] in R.
    pose proof (tail_of _ _ OK' R) as TO. destruct (tail_no_hunk _ TO) as (NE & NH & BN).
    destruct (head_forward p (concat (map hunk_clean (up_hunks p)) ++ concat (map patch_clean ps) ++ after) OKp) as (m0 & E0 & C0 & NM0).
    destruct (hunks_forward (up_hunks p) (S (length (concat (map hunk_clean (up_hunks p)) ++ concat (map patch_clean ps) ++ after)))
      (concat (map patch_clean ps) ++ after) m0 []) as (m & hs & EH & C & F & W); [destruct OKp; assumption|exact NE|exact NH| |exact C0|].
    { rewrite app_length. pose proof (hunks_count (up_hunks p)). unfold str, chr in *. lia. }
    assert (PI : patch_is p m).
    { split; [eapply named_contents; eauto|]. exists hs. split; [exact C|exact F]. }
    destruct (IH fuel after (ms ++ [m]) OK' BA) as (new & rest & E & FN); [|cbn in L; lia|].
    { destruct ps; cbn in *; [constructor|]. inversion_clear R. assumption. }
    exists (m :: new), rest. split; [|constructor; assumption].
    cbn [map concat]. rewrite patch_cleaned, <- !app_assoc.
    match goal with |- context [unified_diff_header ?x] => replace (unified_diff_header x) with
      (@Ok (option dmodel * list str) (Some m0, concat (map hunk_clean (up_hunks p)) ++ concat (map patch_clean ps) ++ after))
      by (rewrite <- E0; f_equal; cbn [app]; rewrite ?app_nil_r; reflexivity) end.
    cbn [bind]. unfold hunk_fuel at 1. rewrite EH. cbn [bind]. rewrite HH, BN. cbn [orb].
    unfold append_model. pose proof (patch_listed _ _ OKp PI) as LI. apply Nat.ltb_lt in LI. rewrite LI.
    rewrite <- HH, E. rewrite <- app_assoc. reflexivity.
Qed.
(** * The format *)
Lemma starts_false p l : starts_with p l = false <-> forall x, l <> p ++ x.
Proof. rewrite <- not_true_iff_false, starts_with_app. split; [intros H x E; apply H; eauto|intros H [x E]; eapply H; eauto]. Qed.
Lemma generator_of ls : Forall (fun l => ~ begins "==== " l) ls ->
  determine_generator ls <> Perforce /\
  (Forall (fun l => ~ begins "Index: " l) ls -> determine_generator ls = DiffDiff).
Proof.
  induction 1 as [|l ls H F [IH1 IH2]]; [split; [discriminate|reflexivity]|]. cbn [determine_generator].
  assert (SP' : starts_with (lit "==== ") l = false) by (apply starts_false; intros x ->; apply H; eexists; reflexivity).
  rewrite SP'. split.
  - destruct (starts_with (lit "Index: ") l); [discriminate|exact IH1].
  - intros K. inversion_clear K as [|? ? N K']. 
    assert (SI : starts_with (lit "Index: ") l = false) by (apply starts_false; intros x ->; apply N; eexists; reflexivity).
    rewrite SI. auto.
Qed.
Lemma body_lines_head c ls : Forall (fun l => (exists x, l = c :: x) \/ l = no_newline_line) (body_lines c ls).
Proof.
  unfold body_lines. induction ls as [|l ls IH]; [constructor|]. cbn [map concat]. apply Forall_app. split; [|exact IH].
  unfold body_line. destruct (ends_with_chr NL l); (constructor; [left; eauto|]); [constructor|]. constructor; [right; reflexivity|constructor].
Qed.

Lemma digits_first (a : re) l : (forall c x, l = c :: x -> is_digit c = false) -> at_start (digits ~~ a) l = false.
Proof.
  intros H. unfold at_start. rewrite m_seq. unfold digits, plus, digit. rewrite m_seq, m_chr. destruct l as [|c x]; [reflexivity|].
  now rewrite (H c x eq_refl).
Qed.
Lemma rcs_first l : (forall c d x, l = c :: d :: x -> In c (lit "acd") -> is_digit d = false) -> at_start rcs_re l = false.
Proof.
  intros H. unfold at_start, rcs_re. rewrite m_seq. unfold one_of. rewrite m_chr. destruct l as [|c x]; [reflexivity|].
  destruct (existsb (N.eqb c) (lit "acd")) eqn:E; [|reflexivity].
  apply existsb_exists in E as (y & I & E). apply N.eqb_eq in E. subst y.
  rewrite m_seq. unfold digits, plus, digit. rewrite m_seq, m_chr. destruct x as [|d x]; [reflexivity|].
  now rewrite (H c d x eq_refl I).
Qed.
Lemma text_first mark a l : ~ begins mark l -> at_start (T mark ~~ a) l = false.
Proof.
  intros H. unfold at_start. rewrite m_seq. unfold T. rewrite m_text.
  assert (starts_with (lit mark) l = false) as -> by (apply starts_false; intros x ->; apply H; eexists; reflexivity). reflexivity.
Qed.
Lemma text_only mark l : ~ begins mark l -> at_start (T mark) l = false.
Proof.
  intros H. unfold at_start. unfold T. rewrite m_text.
  assert (starts_with (lit mark) l = false) as -> by (apply starts_false; intros x ->; apply H; eexists; reflexivity). reflexivity.
Qed.
Lemma quiet_format g l : g <> Perforce -> quiet l -> ~ begins "--- " l -> line_format g l = None.
Proof.
  intros G (Q1 & Q2 & Q3) N. unfold line_format. unfold normal_re, ed_re, cvs_unified_re, cvs_context_re, diff_unified_re, diff_context_re.
  destruct g; [| |congruence]; rewrite !digits_first, rcs_first by assumption.
  - rewrite !text_first by assumption. reflexivity.
  - rewrite !text_only by assumption. reflexivity.
Qed.
Lemma header_format g n t x : g <> Perforce -> name_ok n -> stamp_ok t x -> (g = CVSDiff -> t <> []) ->
  line_format g (heading_text (lit "--- ") n t x) = Some Unified.
Proof.
  intros G (N1 & N2 & N3) (T1 & T2 & T3) S. unfold line_format.
  assert (E : at_start normal_re (heading_text (lit "--- ") n t x) = false).
  { unfold normal_re. apply digits_first. intros c y E. injection E as <- _. reflexivity. }
  rewrite E. destruct g; [| |congruence]; cbn iota.
  - destruct t as [|c t]; [destruct (S eq_refl eq_refl)|].
    enough (at_start cvs_unified_re (heading_text (lit "--- ") n (c :: t) x) = true) as -> by reflexivity.
    unfold at_start, cvs_unified_re, heading_text. rewrite m_seq. unfold T. rewrite s_text, m_seq. unfold not_chr.
    erewrite s_plus_longest; [reflexivity|exact N1|now apply forallb_not|reflexivity|]. unfold tab, is. rewrite m_chr. cbn [app]. reflexivity.
  - enough (at_start diff_unified_re (heading_text (lit "--- ") n t x) = true) as -> by reflexivity.
    unfold at_start, diff_unified_re, heading_text, T. now rewrite s_text.
Qed.
Lemma doc_format d g : doc_ok d -> g <> Perforce -> (forall p ps, ud_files d = p :: ps -> g = CVSDiff -> up_stamp1 p <> []) ->
  determine_format g (doc_clean d) = Unified.
Proof.
  intros [OK SO _ Q _ _] G S. unfold doc_clean. destruct (ud_files d) as [|p ps]; [congruence|].
  specialize (Q p ps eq_refl). specialize (S p ps eq_refl). inversion_clear OK as [|? ? [B O _ S1 _ _ _] _].
  cbn [map concat]. rewrite patch_cleaned, <- !app_assoc.
  induction B as [|l ls [_ HL _ _] B IH].
  - cbn [app determine_format]. rewrite header_format by assumption. reflexivity.
  - inversion_clear Q as [|? ? Ql Q']. cbn [app determine_format]. rewrite quiet_format by assumption. now apply IH.
Qed.
(** The lines of a document that are not part of up_before and ud_after. *)
Lemma body_lines_start c ls l : In l (body_lines c ls) -> (exists x, l = c :: x) \/ l = no_newline_line.
Proof.
  intros I. pose proof (body_lines_head c ls) as F. rewrite Forall_forall in F. apply (F l I).
Qed.
Lemma in_doc d l : In l (doc_lines d) ->
  (exists p, In p (ud_files d) /\ In l (up_before p)) \/ In l (ud_after d) \/
  exists c x, l = c :: x /\ In c (lit " +-@\").
Proof.
  unfold doc_lines. intros I. apply in_app_or in I as [I|I]; [|auto].
  apply in_concat in I as (ls & I1 & I2). apply in_map_iff in I1 as (p & <- & I1). unfold patch_text in I2.
  apply in_app_or in I2 as [I2|I2]; [left; eauto|]. right. right.
  cbn [app] in I2. destruct I2 as [<-|[<-|I2]].
  - eexists _, _. split; [reflexivity|vm_compute; tauto].
  - eexists _, _. split; [reflexivity|vm_compute; tauto].
  - apply in_concat in I2 as (ls & I3 & I4). apply in_map_iff in I3 as (h & <- & I3). destruct I4 as [<-|I4].
    + eexists _, _. split; [reflexivity|vm_compute; tauto].
    + apply in_concat in I4 as (ls & I5 & I6). apply in_map_iff in I5 as (s & <- & I5).
      assert (K : (exists c, In c (lit " +-") /\ exists x, l = c :: x) \/ l = no_newline_line).
      { destruct s as [ls|r a]; cbn [seg_text] in I6.
        - apply body_lines_start in I6 as [I6|I6]; [left; exists SP; split; [vm_compute; tauto|exact I6]|auto].
        - apply in_app_or in I6 as [I6|I6]; apply body_lines_start in I6 as [I6|I6]; auto; left;
            [exists 45%N|exists 43%N]; (split; [vm_compute; tauto|exact I6]). }
      destruct K as [(c & IC & x & ->)| ->]; eexists _, _; (split; [reflexivity|]); [|vm_compute; tauto].
      vm_compute in IC |- *. tauto.
Qed.
Lemma doc_generator d : doc_ok d -> determine_generator (doc_lines d) <> Perforce /\ (forall p ps, ud_files d = p :: ps -> determine_generator (doc_lines d) = CVSDiff -> up_stamp1 p <> []).
Proof.
  intros [OK _ BA _ _ ST].
  assert (P : Forall (fun l => ~ begins "==== " l) (doc_lines d)).
  { apply Forall_forall. intros l I. apply in_doc in I as [(p & I1 & I2)|[I|(c & x & -> & I)]].
    - rewrite Forall_forall in OK. destruct (OK p I1) as [B _ _ _ _ _ _]. rewrite Forall_forall in B. destruct (B l I2). assumption.
    - rewrite Forall_forall in BA. destruct (BA l I). assumption.
    - intros [y E]. injection E as -> _. vm_compute in I. intuition discriminate. }
  destruct (generator_of _ P) as [G1 G2]. split; [exact G1|].
  intros p ps E C H. specialize (ST p ps E H). rewrite G2 in C; [discriminate|]. rewrite Forall_forall in ST.
  apply Forall_forall. intros l I. apply in_doc in I as [(q & I1 & I2)|[I|(c & x & -> & I)]].
  - apply ST. apply in_or_app. left. apply in_concat. exists (up_before q). split; [apply in_map; exact I1|exact I2].
  - apply ST. apply in_or_app. auto.
  - intros [y EE]. injection EE as -> _. vm_compute in I. intuition discriminate.
Qed.
