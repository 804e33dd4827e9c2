(** Reading printed context documents back: hunks, headers, files, format. *)
From Coq Require Import String Sorted Permutation.
From Verif Require Import Base QtStr Lev Diff Regex Patterns Parser SpecEdit SpecInline SpecPatch SpecRegex SpecParse SpecText SpecUnified SpecNormal SpecContext
  PRegex PRegexLang PLev PHistory PEditLines PParse PUnified PHeaders PFileHeads PUnifiedDoc PFuel PAnyInput PDefined PropsParse PropsText PUnifiedPrint PUnifiedRead PNormal PNormalDoc PContext.
Local Open Scope Z_scope.

Notation kend := (fun (s' : str) (c : caps) => match s' with [] => Some c | _ :: _ => None end).

(** * Hunk headers *)
Lemma header1_forward f : ~ In NL f -> exists c,
  full_match context_hunk_header1 (lit "***************" ++ (match f with [] => [] | f => SP :: f end) ++ [NL]) = Some c /\ captured 1 c = f.
Proof.
  intros N. eexists. split.
  - unfold full_match, context_hunk_header1. rewrite m_seq. unfold T. rewrite s_text, m_seq. unfold opt. rewrite m_alt.
    assert (E : forall s, s = f ++ [NL] -> matches (RGroup 1 (star any) ~~ nl) kend s [] = Some [(1%nat, f)]).
    { intros s ->. apply any_rest; [exact N|reflexivity]. }
    destruct f as [|y f].
    + cbn [app]. rewrite s_is_other by discriminate. rewrite m_eps. now apply E.
    + cbn [app]. rewrite s_is. rewrite E by reflexivity. reflexivity.
  - reflexivity.
Qed.
Lemma header1_begins l c : full_match context_hunk_header1 l = Some c -> begins "***************" l.
Proof. intros H. unfold full_match, context_hunk_header1 in H. inv_match H. eexists. reflexivity. Qed.
Lemma ranges_forward mark (tail : re) n k t c0 c' : digit_string n -> digit_string k ->
  (forall c, matches tail kend t c = Some (c' ++ c)) -> match t with x :: _ => is_digit x = false | [] => True end -> 
  matches (T mark ~~ RGroup 1 digits ~~ T "," ~~ RGroup 2 digits ~~ tail) kend (lit mark ++ n ++ lit "," ++ k ++ t) c0 =
    Some (c' ++ (2%nat, k) :: (1%nat, n) :: c0).
Proof.
  intros [N1 D1] [K1 K2] HT DT. rewrite m_seq. unfold T at 1. rewrite s_text, m_seq, m_group. unfold digits at 1, digit at 1.
  apply s_plus_longest; [exact N1|exact D1|reflexivity|]. rewrite group_text, m_seq. unfold T. rewrite s_text, m_seq, m_group. unfold digits, digit.
  apply s_plus_longest; [exact K1|exact K2|exact DT|]. rewrite group_text. apply HT.
Qed.
Lemma header2_forward n k : digit_string n -> digit_string k -> exists c,
  full_match context_hunk_header2 (lit "*** " ++ (n ++ lit "," ++ k) ++ lit " ****" ++ [NL]) = Some c /\ captured 1 c = n.
Proof.
  intros N K. eexists. split.
  - unfold full_match, context_hunk_header2. rewrite <- !app_assoc.
    apply ranges_forward with (c' := []); [exact N|exact K| |reflexivity]. intros c. reflexivity.
  - reflexivity.
Qed.
Lemma header3_forward n k : digit_string n -> digit_string k -> exists c,
  full_match context_hunk_header3 (lit "--- " ++ (n ++ lit "," ++ k) ++ lit " ----" ++ [NL]) = Some c /\ captured 1 c = n.
Proof.
  intros N K. eexists. split.
  - unfold full_match, context_hunk_header3. rewrite <- !app_assoc.
    apply ranges_forward with (c' := []); [exact N|exact K| |reflexivity]. intros c. reflexivity.
  - reflexivity.
Qed.
(** * The lines of the two sides *)
Lemma line_matches c t : In c (lit "-+! ") -> ~ In NL t -> has_match context_line (c :: SP :: t ++ [NL]) = true.
Proof.
  intros I N. unfold has_match, full_match, context_line. rewrite m_seq. unfold one_of. rewrite m_chr.
  assert (existsb (N.eqb c) (lit "-+! ") = true) as -> by (apply existsb_exists; exists c; split; [exact I|apply N.eqb_refl]).
  rewrite m_seq, s_is. erewrite any_rest; [|exact N|reflexivity]. reflexivity.
Qed.
Definition hunk_line_like (l : str) : Prop := exists c t, l = c :: SP :: t ++ [NL] /\ In c (lit "-+! ") /\ ~ In NL t.
Lemma marked_like mark c ts : lit mark = [c; SP] -> In c (lit "-+! ") -> Forall line_text ts -> Forall hunk_line_like (marked mark ts).
Proof.
  intros E I F. unfold marked. apply Forall_map. eapply Forall_impl; [|exact F]. intros t [N _]. exists c, t. rewrite E. auto.
Qed.
Lemma sides_like ss : Forall cseg_ok ss -> Forall hunk_line_like (old_text ss) /\ Forall hunk_line_like (new_text ss).
Proof.
  intros F. assert (K : forall (f : seg -> list str) g, (f = old_side \/ f = new_side) -> Forall hunk_line_like (if existsb g ss then concat (map f ss) else [])).
  { intros f g HF. destruct (existsb g ss); [|constructor]. apply Forall_concat, Forall_map. eapply Forall_impl; [|exact F].
    intros s (T1 & T2 & _). destruct HF as [-> | ->]; destruct s as [ls|r a]; cbn [old_side new_side src_lines dst_lines] in *.
    - now apply (marked_like "  " SP); [reflexivity|vm_compute; tauto|].
    - destruct a; [apply (marked_like "- " 45%N)|apply (marked_like "! " 33%N)]; auto; vm_compute; tauto.
    - now apply (marked_like "  " SP); [reflexivity|vm_compute; tauto|].
    - destruct r; [apply (marked_like "+ " 43%N)|apply (marked_like "! " 33%N)]; auto; vm_compute; tauto. }
  split; apply K; auto.
Qed.
Definition no_body (rest : list str) : Prop := forall l ls, rest = l :: ls -> ~ body_like l.
Lemma take_lines_forward ts rest : Forall hunk_line_like ts -> no_body rest -> take_context_lines (ts ++ rest) = (ts, rest).
Proof.
  intros F N. induction F as [|l ts (c & t & -> & I & NT) F IH]; cbn [app take_context_lines].
  - destruct rest as [|l ls]; [reflexivity|]. cbn [take_context_lines].
    destruct (has_match context_line l) eqn:E; [|reflexivity]. apply context_line_like in E. destruct (N l ls eq_refl E).
  - rewrite line_matches by assumption. rewrite IH. reflexivity.
Qed.
(** * One hunk *)
Lemma shown_sides ss : Exists changes ss -> Forall cseg_ok ss -> shows (existsb removes ss) (existsb adds ss) ss.
Proof.
  intros E F. split.
  - apply Exists_exists in E as (s & I & C). rewrite Forall_forall in F. destruct (F s I) as (_ & _ & NE).
    destruct s as [|r a]; [destruct C|]. cbn [src_lines dst_lines] in NE. apply orb_true_iff.
    destruct r as [|x r]; [destruct a as [|y a]; [tauto|]|].
    + right. apply existsb_exists. exists (Chg [] (y :: a)). auto.
    + left. apply existsb_exists. exists (Chg (x :: r) a). auto.
  - apply Forall_forall. intros s I. split; intros H; apply existsb_exists; eauto.
Qed.
Lemma shows_length ss : forall o n, shows o n ss -> Forall cseg_ok ss -> (length ss <= length (side_of o old_side ss) + length (side_of n new_side ss))%nat.
Proof.
  induction ss as [|s ss IH]; intros o n [ON F] OK; [cbn; lia|]. inversion_clear F as [|? ? [S1 S2] F']. inversion_clear OK as [|? ? (_ & _ & NE) OK'].
  rewrite !side_cons, !app_length. specialize (IH o n (conj ON F') OK'). cbn [length].
  enough (1 <= length (if o then old_side s else []) + length (if n then new_side s else []))%nat by (unfold str, chr in *; lia).
  destruct s as [ls|r a]; cbn [src_lines dst_lines] in NE.
  - destruct ls as [|l ls]; [tauto|]. destruct o, n; try discriminate; cbn; lia.
  - destruct r as [|x0 r].
    + destruct a as [|y0 a]; [tauto|]. rewrite (S2 eq_refl). cbn. lia.
    + rewrite (S1 eq_refl). destruct a; cbn; lia.
Qed.
Lemma chunk_forward h rest m hs : chunk_ok h -> no_body rest -> contents m hs ->
  exists c1 c2 m' p, context_hunk_header_at (chunk_text h ++ rest) = (Some (c1, c2), tl (tl (chunk_text h)) ++ rest) /\
    context_hunk_body c1 c2 (tl (tl (chunk_text h)) ++ rest) m = Ok (m', rest) /\
    contents m' (hs ++ [p]) /\ chunk_is h p /\ (forall st, with_contents m' [] [] st = with_contents m [] [] st).
Proof.
  intros [[A1 A2] [B1 B2] [S1 S2] HF HS HA HC] NB HM.
  destruct (header1_forward (ch_function h) HF) as (c1 & M1 & C1).
  assert (DS : forall z, 0 <= z -> digit_string (number z)) by (intros z Hz; apply number_ok; exact Hz).
  destruct (header2_forward (number (ch_a h)) (number (ch_a h + src_count (ch_segs h) - 1))) as (c2 & M2 & C2); [apply DS; lia|apply DS; lia|].
  destruct (header3_forward (number (ch_b h)) (number (ch_b h + dst_count (ch_segs h) - 1))) as (c3 & M3 & C3); [apply DS; lia|apply DS; lia|].
  destruct (sides_like _ HS) as [L1 L2].
  pose proof (shown_sides _ HC HS) as SH. pose proof (shows_length _ _ _ SH HS) as LE.
  change (side_of (existsb removes (ch_segs h)) old_side (ch_segs h)) with (old_text (ch_segs h)) in LE.
  change (side_of (existsb adds (ch_segs h)) new_side (ch_segs h)) with (new_text (ch_segs h)) in LE.
  destruct (context_loop_forward (ch_segs h) (S (length (old_text (ch_segs h)) + length (new_text (ch_segs h)))) (ch_a h) (ch_b h)
     (existsb removes (ch_segs h)) (existsb adds (ch_segs h))) as (ds & EL & F); auto.
  { unfold str, chr in *. lia. }
  change (side_of (existsb removes (ch_segs h)) old_side (ch_segs h)) with (old_text (ch_segs h)) in EL.
  change (side_of (existsb adds (ch_segs h)) new_side (ch_segs h)) with (new_text (ch_segs h)) in EL.
  exists c1, c2.
  exists (with_contents m
        (dm_hunks m ++ [mk_hunk (ch_a h) (ch_b h) (ch_function h) HNormal (seq (length (dm_store m)) (length ds))])
        (dm_diffs m ++ ids_from (length (dm_store m)) ds) (dm_store m ++ map linked ds)).
  exists (mk_hunk (ch_a h) (ch_b h) (ch_function h) HNormal (seq (length (dm_store m)) (length ds)), map linked ds).
  split.
  { match type of M1 with full_match _ ?l1 = _ => match type of M2 with full_match _ ?l2 = _ =>
      replace (chunk_text h ++ rest) with (l1 :: l2 :: (tl (tl (chunk_text h)) ++ rest))
        by (unfold chunk_text, lines_text; destruct (ch_function h); reflexivity) end end.
    cbn [context_hunk_header_at]. rewrite M1, M2. reflexivity. }
  split.
  { unfold context_hunk_body.
    assert (EB : tl (tl (chunk_text h)) ++ rest = old_text (ch_segs h) ++
      ((lit "--- " ++ (number (ch_b h) ++ lit "," ++ number (ch_b h + dst_count (ch_segs h) - 1)) ++ lit " ----" ++ [NL]) ::
      (new_text (ch_segs h) ++ rest))).
    { transitivity ((old_text (ch_segs h) ++
        ([lit "--- " ++ (number (ch_b h) ++ lit "," ++ number (ch_b h + dst_count (ch_segs h) - 1)) ++ lit " ----" ++ [NL]] ++ new_text (ch_segs h))) ++ rest);
        [reflexivity|]. rewrite app_assoc_reverse. reflexivity. }
    rewrite EB.
    rewrite take_lines_forward; [|exact L1|].
    - rewrite M3. rewrite take_lines_forward by assumption.
      rewrite C1, C2, C3, !to_int_number by (unfold small; lia). rewrite EL. cbn [bind]. rewrite add_parsed_hunk_ok. reflexivity.
    - intros l ls E. injection E as <- _. intros (x & y & X & _). discriminate. }
  split; [now apply contents_add|]. split; [|reflexivity].
  apply context_body_ok in EL as [CT RW].
  unfold chunk_is. cbn [fst snd h_src h_dst h_function h_type]. repeat (split; [reflexivity|]). split; [|split].
  - clear -F. induction F; cbn; constructor; auto using seg_is_linked.
  - now apply linked_contiguous.
  - apply Forall_map. eapply Forall_impl; [|exact RW]. exact linked_pristine.
Qed.
Definition no_chunk (rest : list str) : Prop := forall l ls, rest = l :: ls -> ~ begins "***************" l.
Lemma no_chunk_at rest : no_chunk rest -> context_hunk_header_at rest = (None, rest).
Proof.
  intros N. destruct rest as [|l ls]; [reflexivity|]. cbn [context_hunk_header_at].
  destruct (full_match context_hunk_header1 l) eqn:E; [|reflexivity]. apply header1_begins in E. destruct (N l ls eq_refl E).
Qed.
Lemma chunks_forward us : forall fuel rest m hs, Forall chunk_ok us -> no_body rest -> no_chunk rest ->
  (length us < fuel)%nat -> contents m hs ->
  exists m' ps, context_hunks fuel (concat (map chunk_text us) ++ rest) m = Ok (m', rest) /\
    contents m' (hs ++ ps) /\ Forall2 chunk_is us ps /\ (forall st, with_contents m' [] [] st = with_contents m [] [] st).
Proof.
  induction us as [|h us IH]; intros fuel rest m hs OK NE NH L HC; (destruct fuel as [|fuel]; [cbn in L; lia|]); cbn [context_hunks].
  - exists m, []. rewrite app_nil_r. split; [|split; [exact HC|split; [constructor|reflexivity]]].
    cbn [map concat app]. rewrite no_chunk_at by assumption. reflexivity.
  - inversion_clear OK as [|? ? OKh OK']. cbn [length] in L.
    destruct (chunk_forward h (concat (map chunk_text us) ++ rest) m hs OKh) as (c1 & c2 & m1 & p & M & B & C1 & HI & W1).
    { destruct us as [|u us]; [exact NE|]. intros l ls E. cbn in E. injection E as <- _. intros (x & y & X & _). discriminate. }
    { exact HC. }
    destruct (IH fuel rest m1 (hs ++ [p]) OK' NE NH ltac:(lia) C1) as (m' & ps & E & C2 & F & W2).
    exists m', (p :: ps). split.
    + cbn [map concat]. rewrite <- app_assoc. rewrite M, B. cbn [bind]. exact E.
    + rewrite <- app_assoc in C2. split; [exact C2|]. split; [constructor; assumption|]. intros st. rewrite W2. apply W1.
Qed.
(** * File headers *)
Definition dialect (cvs : bool) : generator := if cvs then CVSDiff else DiffDiff.
Definition read_stamp1 (cvs : bool) (p : cpatch) : str := if cvs then match cp_rev1 p with Some r => r | None => [] end else cp_stamp1 p.
Definition read_stamp2 (cvs : bool) (p : cpatch) : str := if cvs then match cp_rev2 p with Some r => TAB :: r | None => [] end else cp_stamp2 p.
Lemma diff_heading mark n t : name_ok n -> stamp_ok t None -> exists c,
  full_match (diff_context_header mark) (cheading mark n t None) = Some c /\ captured 1 c = n /\ captured 3 c = t /\ captured 5 c = [].
Proof.
  intros (N1 & N2 & N3) (T1 & T2 & _). unfold cheading, heading_text, full_match, diff_context_header.
  destruct t as [|x t].
  - exists [(1%nat, n)]. split; [|auto]. rewrite m_seq. unfold T. rewrite s_text, m_seq, m_group. unfold not_chr. cbn [app].
    apply s_plus_take; auto using forallb_not.
    + rewrite group_text, m_seq. unfold opt, nl. rewrite m_alt, m_group, m_seq. unfold tab. rewrite s_is_other by discriminate.
      rewrite m_eps, s_is. reflexivity.
    + intros y w2 rest2 E F. destruct w2; [|destruct w2; discriminate]. cbn in E. injection E as <- <-.
      rewrite m_seq. unfold opt, nl. rewrite m_alt, m_group, m_seq. reflexivity.
  - rewrite app_nil_r. eexists. split.
    + rewrite m_seq. unfold T. rewrite s_text, m_seq, m_group. unfold not_chr at 1.
      replace ((TAB :: (x :: t)) ++ [NL]) with (TAB :: ((x :: t) ++ [NL])) by reflexivity.
      apply s_plus_longest; [auto; discriminate|now apply forallb_not|reflexivity|].
      rewrite group_text, m_seq. unfold opt. rewrite m_alt, m_group, m_seq. unfold tab at 1. rewrite s_is, m_group. unfold not_chr.
      erewrite s_plus_take; [reflexivity|discriminate|now apply forallb_not| |].
      * rewrite group_text. unfold nl. rewrite s_is. reflexivity.
      * intros y w2 rest2 E F. destruct w2; [|destruct w2; discriminate]. cbn in E. injection E as <- <-. reflexivity.
    + repeat split; reflexivity.
Qed.
Lemma cvs_heading1 n t r : name_ok n -> stamp_ok t (Some r) -> t <> [] -> exists c,
  full_match cvs_context_header1 (cheading "*** " n t (Some r)) = Some c /\ captured 1 c = n /\ captured 3 c = r /\ captured 5 c = [].
Proof.
  intros (N1 & N2 & N3) (T1 & T2 & T3) NE. unfold cheading, heading_text, full_match, cvs_context_header1. destruct t as [|x t]; [congruence|].
  eexists. split.
  - rewrite m_seq. unfold T. rewrite s_text, m_seq, m_group. unfold not_chr at 1.
    replace ((TAB :: (x :: t) ++ TAB :: r) ++ [NL]) with (TAB :: ((x :: t) ++ TAB :: (r ++ [NL]))) by (cbn; rewrite <- app_assoc; reflexivity).
    apply s_plus_longest; [auto; discriminate|now apply forallb_not|reflexivity|].
    rewrite group_text, m_seq. unfold tab at 1. rewrite s_is, m_seq, m_group. unfold not_chr.
    apply s_plus_longest; [auto; discriminate|now apply forallb_not|reflexivity|].
    rewrite group_text, m_seq. unfold tab. rewrite s_is. apply any_rest; [exact T3|reflexivity].
  - repeat split; reflexivity.
Qed.
Lemma cvs_heading2 n t r : name_ok n -> stamp_ok t r -> t <> [] -> exists c,
  full_match cvs_context_header2 (cheading "--- " n t r) = Some c /\ captured 1 c = n /\
  captured 3 c = match r with Some r => TAB :: r | None => [] end /\ captured 5 c = [].
Proof.
  intros (N1 & N2 & N3) (T1 & T2 & T3) NE. unfold cheading, heading_text, full_match, cvs_context_header2. destruct t as [|x t]; [congruence|].
  destruct r as [r|].
  - eexists. split.
    + rewrite m_seq. unfold T. rewrite s_text, m_seq, m_group. unfold not_chr at 1.
      replace ((TAB :: (x :: t) ++ TAB :: r) ++ [NL]) with (TAB :: ((x :: t) ++ TAB :: (r ++ [NL]))) by (cbn; rewrite <- app_assoc; reflexivity).
      apply s_plus_longest; [auto; discriminate|now apply forallb_not|reflexivity|].
      rewrite group_text, m_seq. unfold tab at 1. rewrite s_is, m_seq, m_group. unfold not_chr.
      apply s_plus_longest; [auto; discriminate|now apply forallb_not|reflexivity|].
      rewrite group_text, m_seq, m_group, m_alt, m_eps. unfold nl at 1. rewrite s_is_other by discriminate.
      rewrite m_seq. unfold tab. rewrite s_is, m_group. unfold star, any. apply m_star_longest; [now apply not_nl_any|reflexivity|].
      unfold nl. rewrite s_is. reflexivity.
    + cbn [captured Nat.eqb]. repeat split; try reflexivity.
      change (TAB :: r ++ [NL]) with ((TAB :: r) ++ [NL]). apply group_text.
  - rewrite app_nil_r. eexists. split.
    + rewrite m_seq. unfold T. rewrite s_text, m_seq, m_group. unfold not_chr at 1.
      replace ((TAB :: (x :: t)) ++ [NL]) with (TAB :: ((x :: t) ++ [NL])) by reflexivity.
      apply s_plus_longest; [auto; discriminate|now apply forallb_not|reflexivity|].
      rewrite group_text, m_seq. unfold tab at 1. rewrite s_is, m_seq, m_group. unfold not_chr.
      apply s_plus_take; [discriminate|now apply forallb_not| |].
      * rewrite group_text, m_seq, m_group, m_alt, m_eps. unfold nl. rewrite s_is. reflexivity.
      * intros y w2 rest2 E F. destruct w2; [|destruct w2; discriminate]. cbn in E. injection E as <- <-. reflexivity.
    + cbn [captured Nat.eqb]. repeat split; try reflexivity; try (rewrite Nat.sub_diag; reflexivity).
Qed.
Lemma headings cvs p : cpatch_ok cvs p -> exists c1 c2,
  full_match (context_header1_of (dialect cvs)) (cheading "*** " (cp_old p) (cp_stamp1 p) (cp_rev1 p)) = Some c1 /\
  full_match (context_header2_of (dialect cvs)) (cheading "--- " (cp_new p) (cp_stamp2 p) (cp_rev2 p)) = Some c2 /\
  captured 1 c1 = cp_old p /\ captured 3 c1 = read_stamp1 cvs p /\ captured 5 c1 = [] /\
  captured 1 c2 = cp_new p /\ captured 3 c2 = read_stamp2 cvs p /\ captured 5 c2 = [].
Proof.
  intros [_ O N S1 S2 D _ _]. unfold read_stamp1, read_stamp2. destruct cvs; cbn [dialect context_header1_of context_header2_of].
  - destruct D as (D1 & D2 & D3). destruct (cp_rev1 p) as [r|]; [|congruence].
    destruct (cvs_heading1 _ _ _ O S1 D1) as (c1 & ? & ? & ? & ?). destruct (cvs_heading2 _ _ _ N S2 D2) as (c2 & ? & ? & ? & ?).
    exists c1, c2. auto 10.
  - destruct D as [D1 D2]. rewrite D1, D2 in *. destruct (diff_heading "*** " _ _ O S1) as (c1 & ? & ? & ? & ?).
    destruct (diff_heading "--- " _ _ N S2) as (c2 & ? & ? & ? & ?). exists c1, c2. auto 10.
Qed.
Lemma no_cheading cvs l : ~ begins "*** " l -> full_match (context_header1_of (dialect cvs)) l = None.
Proof. intros N. destruct cvs; now apply line_no. Qed.
Lemma chead_forward cvs p rest : cpatch_ok cvs p ->
  exists m, context_head_of (dialect cvs) (cp_before p ++
    [cheading "*** " (cp_old p) (cp_stamp1 p) (cp_rev1 p); cheading "--- " (cp_new p) (cp_stamp2 p) (cp_rev2 p)] ++ rest) = Ok (Some m, rest) /\
    contents m [] /\ named m (unescape_path (cp_old p)) (unescape_path (cp_new p)) (read_stamp1 cvs p) (read_stamp2 cvs p).
Proof.
  intros OK. destruct (headings cvs p OK) as (c1 & c2 & M1 & M2 & C1 & C3 & C5 & C1' & C3' & C5'). destruct OK as [B _ _ _ _ _ _ _].
  destruct (new_model_named (unescape_path (cp_old p)) (unescape_path (cp_new p)) _ eq_refl)
        as (A1 & A2 & A3 & A4 & A5 & A6 & A7 & A8 & A9).
  assert (H : forall ls, context_head_of (dialect cvs) ls = context_diff_header (context_header1_of (dialect cvs)) (context_header2_of (dialect cvs)) ls)
    by (destruct cvs; reflexivity).
  eexists. split; [rewrite H|split].
  - induction B as [|l ls HL B IH].
    + cbn [app context_diff_header]. rewrite M1, M2, C1, C3, C5, C1', C3', C5'. reflexivity.
    + cbn [app context_diff_header]. rewrite no_cheading by (destruct HL; assumption). exact IH.
  - destruct A5 as [[B1 B2 B3 B4 B6 B7] B5]. split; [split|]; auto.
  - split; auto.
Qed.
(** * Files *)
Definition read_patch (cvs : bool) (p : cpatch) (m : dmodel) : Prop :=
  named m (unescape_path (cp_old p)) (unescape_path (cp_new p)) (read_stamp1 cvs p) (read_stamp2 cvs p) /\ chunks_are p m.
Lemma cpatch_listed cvs p m : cpatch_ok cvs p -> chunks_are p m -> (0 < length (dm_diffs m))%nat.
Proof.
  intros [_ _ _ _ _ _ OK SO] (hs & [[H1 H2 H3 H4 _ _] H5] & F).
  enough (filter (fun d => negb (is_context d)) (concat (map snd hs)) <> []).
  { destruct (dm_diffs m); [|cbn; lia]. cbn in H3. injection H3 as E. congruence. }
  destruct F as [|u q us qs HU F]; [congruence|]. inversion_clear OK as [|? ? [_ _ _ _ _ _ CH] _].
  destruct HU as (_ & _ & _ & _ & FS & _ & _). cbn [map concat]. rewrite filter_app. intros E. apply app_eq_nil in E as [E _]. clear -CH FS E.
  induction FS as [|s d ss ds HS FS IH]; [inversion CH|]. cbn in E.
  inversion CH as [? ? C'|? ? C']; subst.
  - destruct s as [|r a]; [destruct C'|]. destruct HS as (_ & _ & T). unfold is_context in E.
    destruct r, a; rewrite T in E; discriminate.
  - apply IH; [exact C'|]. destruct (negb (is_context d)); [discriminate|exact E].
Qed.
Definition ctail_ok (cvs : bool) (ls : list str) : Prop := forall l ls', ls = l :: ls' ->
  resumes l \/ exists p, cpatch_ok cvs p /\ l = cheading "*** " (cp_old p) (cp_stamp1 p) (cp_rev1 p).
Lemma ctail_ends cvs ls : ctail_ok cvs ls -> no_body ls /\ no_chunk ls /\ bad_next_header (context_header1_of (dialect cvs)) ls = false.
Proof.
  intros T. split; [|split].
  - intros l ls' E (x & y & X & I). subst l. destruct (T _ _ E) as [[H|[H|H]]|(p & _ & H)].
    1-3: destruct H as [u H]; injection H as -> H; vm_compute in I; intuition discriminate.
    injection H as -> H. vm_compute in I. intuition discriminate.
  - intros l ls' E [y ->]. destruct (T _ _ E) as [[H|[H|H]]|(p & _ & H)]; try (destruct H; discriminate); discriminate.
  - destruct ls as [|l ls]; [reflexivity|]. unfold bad_next_header. destruct (T l ls eq_refl) as [[H|[H|H]]|(p & OK & ->)].
    1-3: apply starts_with_app in H; rewrite H; now rewrite !andb_false_r.
    destruct (headings cvs p OK) as (c1 & _ & M1 & _). unfold has_match. rewrite M1. reflexivity.
Qed.
Lemma ctail_of cvs ps after : Forall (cpatch_ok cvs) ps -> Forall may_resume (map cp_before ps ++ [after]) ->
  ctail_ok cvs (concat (map cpatch_text ps) ++ after).
Proof.
  intros OK R. destruct ps as [|p ps].
  - cbn in *. inversion_clear R. intros l ls E. left. eapply H; eauto.
  - inversion_clear OK as [|? ? OKp _]. cbn in R. inversion_clear R as [|? ? R1 _].
    cbn [map concat]. unfold cpatch_text at 1. intros l ls E. destruct (cp_before p) as [|b bs].
    + right. cbn [app] in E. injection E as <- _. eauto.
    + left. cbn [app] in E. injection E as <- _. eapply R1. reflexivity.
Qed.
Lemma chunks_count us : (length us <= length (concat (map chunk_text us)))%nat.
Proof. induction us; cbn; [lia|]. rewrite app_length. lia. Qed.
Lemma cfiles_forward cvs ps : forall fuel after ms,
  Forall (cpatch_ok cvs) ps -> Forall cbetween after -> Forall may_resume (tl (map cp_before ps ++ [after])) ->
  (length ps < fuel)%nat ->
  exists new rest, files (context_head_of (dialect cvs)) (hunk_fuel context_hunks) (context_header1_of (dialect cvs)) fuel
      (concat (map cpatch_text ps) ++ after) ms false = Ok (ms ++ new, false, rest) /\ Forall2 (read_patch cvs) ps new.
Proof.
  induction ps as [|p ps IH]; intros fuel after ms OK BA R L; (destruct fuel as [|fuel]; [cbn in L; lia|]); cbn [files].
  - exists [], []. rewrite app_nil_r. split; [|constructor]. cbn [map concat app].
    enough (context_head_of (dialect cvs) after = Ok (None, [])) as -> by reflexivity.
    assert (H : forall ls, context_head_of (dialect cvs) ls = context_diff_header (context_header1_of (dialect cvs)) (context_header2_of (dialect cvs)) ls)
      by (destruct cvs; reflexivity). rewrite H. clear -BA.
    induction BA as [|l ls [_ H _ _] BA IH]; [reflexivity|]. cbn [context_diff_header]. rewrite no_cheading by assumption. exact IH.
  - inversion_clear OK as [|? ? OKp OK']. cbn [map tl] in R. cbn [app tl] in R.
    pose proof (ctail_of cvs _ _ OK' R) as TO. destruct (ctail_ends _ _ TO) as (NE & NH & BN).
    destruct (chead_forward cvs p (concat (map chunk_text (cp_chunks p)) ++ concat (map cpatch_text ps) ++ after) OKp) as (m0 & E0 & C0 & NM0).
    destruct (chunks_forward (cp_chunks p) (S (length (concat (map chunk_text (cp_chunks p)) ++ concat (map cpatch_text ps) ++ after)))
      (concat (map cpatch_text ps) ++ after) m0 []) as (m & hs & EH & C & F & W); [destruct OKp; assumption|exact NE|exact NH| |exact C0|].
    { rewrite app_length. pose proof (chunks_count (cp_chunks p)). unfold str, chr in *. lia. }
    assert (CA : chunks_are p m) by (exists hs; split; [exact C|exact F]).
    assert (PI : read_patch cvs p m) by (split; [eapply named_contents; eauto|exact CA]).
    destruct (IH fuel after (ms ++ [m]) OK' BA) as (new & rest & E & FN); [|cbn in L; lia|].
    { destruct ps; cbn in *; [constructor|]. inversion_clear R. assumption. }
    exists (m :: new), rest. split; [|constructor; assumption].
    cbn [map concat]. unfold cpatch_text at 1. rewrite <- !app_assoc. unfold str, chr in *. rewrite E0.
    cbn [bind]. unfold hunk_fuel at 1. unfold str, chr in *. rewrite EH. cbn [bind]. rewrite BN. cbn [orb].
    unfold append_model. pose proof (cpatch_listed cvs _ _ OKp CA) as LI. apply Nat.ltb_lt in LI. rewrite LI.
    rewrite E. rewrite <- app_assoc. reflexivity.
Qed.
(** * All lines of a document *)
Definition own_line (l : str) : Prop := whole_line l /\ exists c x, l = c :: x /\ In c (lit "*-+! ").
Lemma cheading_own mark n t r : name_ok n -> stamp_ok t r -> (exists c x, lit mark = c :: x /\ In c (lit "*-+! ")) -> ~ In NL (lit mark) ->
  own_line (cheading mark n t r).
Proof.
  intros (N1 & N2 & N3) (T1 & T2 & T3) (c & x & E & I) NM. unfold cheading, heading_text. split.
  - eexists. split; [rewrite !app_assoc; reflexivity|]. rewrite <- !app_assoc.
    assert (Q : forall a b : str, ~ In NL a -> ~ In NL b -> ~ In NL (a ++ b)) by (intros a b A B J; apply in_app_or in J as [J|J]; auto).
    apply Q; [exact NM|]. apply Q; [exact N3|]. destruct t as [|y t]; [intros []|]. intros [J|J]; [discriminate|].
    apply in_app_or in J as [J|J]; [auto|]. destruct r as [r|]; [|destruct J]. destruct J as [J|J]; [discriminate|auto].
  - rewrite E. eexists c, _. split; [reflexivity|exact I].
Qed.
Lemma chunk_own h : chunk_ok h -> Forall own_line (chunk_text h).
Proof.
  intros [[A1 A2] [B1 B2] [S1 S2] HF HS _ _]. destruct (sides_like _ HS) as [L1 L2].
  assert (Q : forall a b : str, ~ In NL a -> ~ In NL b -> ~ In NL (a ++ b)) by (intros a b A B J; apply in_app_or in J as [J|J]; auto).
  assert (LL : forall ls, Forall hunk_line_like ls -> Forall own_line ls).
  { intros ls. apply Forall_impl. intros l (c & t & -> & I & N). split.
    - exists (c :: SP :: t). split; [reflexivity|]. intros [J|[J|J]]; [|discriminate|auto]. subst c. vm_compute in I. intuition discriminate.
    - exists c, (SP :: t ++ [NL]). split; [reflexivity|]. right. exact I. }
  assert (NN : forall z, 0 <= z -> ~ In NL (number z)) by (intros z Hz; now apply number_no_nl).
  unfold chunk_text. apply Forall_app. split; [|apply Forall_app; split; [auto|apply Forall_app; split; [|auto]]].
  - constructor; [|constructor; [|constructor]]; (split; [|eexists _, _; split; [reflexivity|vm_compute; tauto]]).
    + eexists. split; [rewrite app_assoc; reflexivity|]. apply Q; [now apply no_nl_lit|].
      destruct (ch_function h); [intros []|]. intros [J|J]; [discriminate|auto].
    + eexists. split; [rewrite !app_assoc; reflexivity|]. rewrite <- !app_assoc. unfold lines_text.
      repeat (apply Q; [first [now apply no_nl_lit|apply NN; lia|apply Q; [apply NN; lia|apply Q; [now apply no_nl_lit|apply NN; lia]]]|]). now apply no_nl_lit.
  - constructor; [|constructor]; (split; [|eexists _, _; split; [reflexivity|vm_compute; tauto]]).
    eexists. split; [rewrite !app_assoc; reflexivity|]. rewrite <- !app_assoc. unfold lines_text.
    repeat (apply Q; [first [now apply no_nl_lit|apply NN; lia|apply Q; [apply NN; lia|apply Q; [now apply no_nl_lit|apply NN; lia]]]|]). now apply no_nl_lit.
Qed.
Definition asides (d : cdoc) : list str := concat (map cp_before (cd_files d)) ++ cd_after d.
Lemma cdoc_all cvs d (P : str -> Prop) : Forall (cpatch_ok cvs) (cd_files d) -> (forall l, In l (asides d) -> P l) -> (forall l, own_line l -> P l) ->
  Forall P (cdoc_lines d).
Proof.
  intros OK A B. unfold cdoc_lines. apply Forall_app. split.
  - apply Forall_forall. intros l I. apply in_concat in I as (ls & I1 & I2). apply in_map_iff in I1 as (p & <- & I1).
    rewrite Forall_forall in OK. destruct (OK p I1) as [_ O N S1 S2 _ CH _]. unfold cpatch_text in I2.
    apply in_app_or in I2 as [I2|I2].
    + apply A. unfold asides. apply in_or_app. left. apply in_concat. exists (cp_before p). split; [now apply in_map|exact I2].
    + apply B. cbn [app] in I2. destruct I2 as [<-|[<-|I2]].
      * apply cheading_own; auto; [eexists _, _; split; [reflexivity|vm_compute; tauto]|now apply no_nl_lit].
      * apply cheading_own; auto; [eexists _, _; split; [reflexivity|vm_compute; tauto]|now apply no_nl_lit].
      * apply in_concat in I2 as (ls & I3 & I4). apply in_map_iff in I3 as (h & <- & I3).
        rewrite Forall_forall in CH. pose proof (chunk_own h (CH h I3)) as F. rewrite Forall_forall in F. auto.
  - apply Forall_forall. intros l I. apply A. unfold asides. apply in_or_app. auto.
Qed.
Lemma aside_between cvs d l : cdoc_ok cvs d -> In l (asides d) -> cbetween l.
Proof.
  intros [OK _ AF _ _ _] I. unfold asides in I. apply in_app_or in I as [I|I].
  - apply in_concat in I as (ls & I1 & I2). apply in_map_iff in I1 as (p & <- & I1). rewrite Forall_forall in OK.
    destruct (OK p I1) as [B _ _ _ _ _ _ _]. rewrite Forall_forall in B. auto.
  - rewrite Forall_forall in AF. auto.
Qed.
Lemma own_not p c l : lit p = c :: tl (lit p) -> ~ In c (lit "*-+! ") -> own_line l -> ~ begins p l.
Proof. intros E N (_ & c' & x & -> & I) [y Y]. rewrite E in Y. injection Y as -> _. auto. Qed.
(** * Generator and format *)
Lemma index_line_generator ls : Forall (fun l => ~ begins "==== " l) ls -> Exists (begins "Index: ") ls -> determine_generator ls = CVSDiff.
Proof.
  intros F E. induction E as [l ls [x ->]|l ls E IH]; cbn [determine_generator]; inversion_clear F as [|? ? N F'].
  - rewrite (proj2 (starts_with_app (lit "Index: ") _)) by (eexists; reflexivity). reflexivity.
  - assert (starts_with (lit "==== ") l = false) as -> by (apply starts_false; intros x ->; apply N; eexists; reflexivity).
    destruct (starts_with (lit "Index: ") l); [reflexivity|auto].
Qed.
Lemma cdoc_generator cvs d : cdoc_ok cvs d -> determine_generator (cdoc_lines d) = dialect cvs.
Proof.
  intros OK. assert (NP : Forall (fun l => ~ begins "==== " l) (cdoc_lines d)).
  { apply (cdoc_all cvs); [apply OK| |].
    - intros l I. apply (aside_between cvs d l OK I).
    - intros l. apply (own_not "==== " 61%N); [reflexivity|vm_compute; intuition discriminate]. }
  destruct OK as [F _ _ _ _ D]. destruct cvs; cbn [dialect].
  - apply index_line_generator; [exact NP|]. apply Exists_exists in D as (l & I & B). apply Exists_exists. exists l. split; [|exact B].
    unfold cdoc_lines. apply in_app_or in I as [I|I]; apply in_or_app; [left|auto].
    apply in_concat in I as (ls & I1 & I2). apply in_map_iff in I1 as (p & <- & I1). apply in_concat. exists (cpatch_text p).
    split; [now apply in_map|]. unfold cpatch_text. apply in_or_app. auto.
  - apply generator_of; [exact NP|]. apply (cdoc_all false); [exact F| |].
    + intros l I. rewrite Forall_forall in D. now apply D.
    + intros l. apply (own_not "Index: " 73%N); [reflexivity|vm_compute; intuition discriminate].
Qed.
Lemma cheading_format cvs p : cpatch_ok cvs p -> line_format (dialect cvs) (cheading "*** " (cp_old p) (cp_stamp1 p) (cp_rev1 p)) = Some Context.
Proof.
  intros [_ (N1 & N2 & N3) _ (T1 & T2 & T3) _ D _ _].
  assert (E : at_start normal_re (cheading "*** " (cp_old p) (cp_stamp1 p) (cp_rev1 p)) = false).
  { unfold normal_re. apply digits_first. intros c y E. injection E as <- _. reflexivity. }
  assert (NB : ~ begins "--- " (cheading "*** " (cp_old p) (cp_stamp1 p) (cp_rev1 p))) by (intros [x X]; discriminate).
  destruct cvs; cbn [dialect line_format]; rewrite E.
  - unfold cvs_unified_re. rewrite text_first by exact NB. destruct D as (D1 & _). destruct (cp_stamp1 p) as [|c t]; [congruence|].
    enough (at_start cvs_context_re (cheading "*** " (cp_old p) (c :: t) (cp_rev1 p)) = true) as -> by reflexivity.
    unfold at_start, cvs_context_re, cheading, heading_text. rewrite m_seq. unfold T. rewrite s_text, m_seq. unfold not_chr.
    erewrite s_plus_longest; [reflexivity|exact N1|now apply forallb_not|reflexivity|]. unfold tab, is. rewrite m_chr. cbn [app]. reflexivity.
  - unfold diff_unified_re. rewrite text_only by exact NB.
    enough (at_start diff_context_re (cheading "*** " (cp_old p) (cp_stamp1 p) (cp_rev1 p)) = true) as -> by reflexivity.
    unfold at_start, diff_context_re, cheading, heading_text, T. now rewrite s_text.
Qed.
Lemma cdoc_format cvs d : cdoc_ok cvs d -> determine_format (dialect cvs) (cdoc_lines d) = Context.
Proof.
  intros [OK SO _ Q _ _]. unfold cdoc_lines. destruct (cd_files d) as [|p ps]; [congruence|].
  specialize (Q p ps eq_refl). inversion_clear OK as [|? ? OKp _].
  cbn [map concat]. unfold cpatch_text at 1. rewrite <- !app_assoc.
  induction Q as [|l ls [QL NL'] Q IH].
  - cbn [app determine_format]. rewrite cheading_format by assumption. reflexivity.
  - cbn [app determine_format]. rewrite quiet_format; [|destruct cvs; discriminate|exact QL|exact NL']. exact IH.
Qed.
Lemma context_read cvs sort d : (forall l, Permutation (sort l) l) -> cdoc_ok cvs d ->
  exists o, parse sort (split_lines (cdoc_text d)) = Ok o /\ po_malformed o = false /\ po_format o = Context /\
    exists ms, Permutation (the_models (po_models o)) ms /\ Forall2 (read_patch cvs) (cd_files d) ms.
Proof.
  intros HP OK. unfold cdoc_text.
  assert (WL : Forall whole_line (cdoc_lines d)).
  { apply (cdoc_all cvs); [apply OK| |intros l [H _]; exact H]. intros l I. destruct (aside_between cvs d l OK I) as [(t & E & N) _ _ _]. exists t; auto. }
  rewrite split_whole by exact WL.
  destruct (clean_same (cdoc_lines d)) as [n EC].
  { apply (cdoc_all cvs); [apply OK| |].
    - intros l I. apply (aside_between cvs d l OK I).
    - intros l. apply (own_not "\ No newline" BSL); [reflexivity|vm_compute; intuition discriminate]. }
  destruct (cfiles_forward cvs (cd_files d) (S (length (cdoc_lines d))) (cd_after d) []) as (new & rest & E & F).
  - apply OK.
  - apply OK.
  - destruct OK as [_ SO _ _ R _]. destruct (cd_files d) as [|p ps]; [congruence|]. exact (R p ps eq_refl).
  - unfold cdoc_lines. rewrite app_length.
    enough (forall l, (length l <= length (concat (map cpatch_text l)))%nat) as K by (specialize (K (cd_files d)); unfold str, chr in *; lia).
    induction l as [|p l IH]; cbn [map concat length]; [lia|]. rewrite app_length. unfold cpatch_text at 1. rewrite !app_length. cbn [length]. lia.
  - unfold parse. rewrite EC, (cdoc_generator cvs) by exact OK. cbn [bind]. unfold base_parse. rewrite cdoc_format by exact OK.
    unfold parse_context. fold (cdoc_lines d) in E. rewrite E. cbn [bind app].
    eexists. split; [reflexivity|]. cbn [po_malformed po_format po_models]. split; [reflexivity|]. split; [reflexivity|].
    exists new. split; [|exact F]. rewrite the_models_sort. apply HP.
Qed.
