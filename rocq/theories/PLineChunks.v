(** Reading line by line, for any input: hunks of context diffs. *)
From Coq Require Import String Permutation.
From Verif Require Import Base QtStr Lev Diff Regex Patterns Parser SpecEdit SpecInline SpecPatch SpecParse SpecLines
  PRegex PLev PHistory PEditLines PParse PUnified PHeaders PFileHeads PUnifiedDoc PFuel PAnyInput PNormal PLines.
Local Open Scope Z_scope.

(** * Marked lines *)
Lemma cline_has l : has_match context_line l = true <-> exists c, cline_ok c /\ l = cline_text c.
Proof.
  unfold has_match. split.
  - destruct (full_match _ _) as [c|] eqn:E; [|discriminate]. intros _. unfold full_match, context_line in E. rewrite m_seq in E.
    unfold one_of in E. apply i_chr in E as (x & s & -> & X & E). inv_match E. inv_match E. inv_match E. apply end_inv in E as [-> _].
    match goal with F : forallb _ ?w = true |- _ => exists (x, w); apply not_nl_any in F end. split; [split; [|assumption]|reflexivity].
    cbn [fst]. apply existsb_exists in X as (y & I & Y). apply N.eqb_eq in Y. now subst.
  - intros ([x t] & [A B] & ->). cbn [fst snd] in *. unfold full_match, context_line, cline_text. cbn [fst snd]. rewrite m_seq. unfold one_of. rewrite m_chr.
    replace (existsb _ _) with true by (symmetry; apply existsb_exists; exists x; split; [exact A|apply N.eqb_refl]).
    rewrite m_seq, s_is. erewrite any_rest; [reflexivity|exact B|reflexivity].
Qed.
Lemma cline_split ls : forall ts rest, take_context_lines ls = (ts, rest) ->
  exists cs, ts = map cline_text cs /\ Forall cline_ok cs /\ ls = map cline_text cs ++ rest /\ no_cline rest.
Proof.
  induction ls as [|l ls IH]; intros ts rest H; cbn [take_context_lines] in H.
  - injection H as <- <-. exists []. repeat split; auto. intros c r _ E; discriminate.
  - destruct (has_match context_line l) eqn:E.
    + destruct (take_context_lines ls) as [ts' r']. injection H as <- <-. destruct (IH _ _ eq_refl) as (cs & -> & F & -> & N).
      apply cline_has in E as (c & O & ->). exists (c :: cs). repeat split; auto.
    + injection H as <- <-. exists []. repeat split; auto. intros c r O X. injection X as -> _.
      assert (has_match context_line (cline_text c) = true) as T by (apply cline_has; eauto). congruence.
Qed.
Lemma marked_match mark x c : lit mark = [x; SP] -> cline_ok c ->
  if N.eqb (fst c) x then exists k, full_match (T mark ~~ RGroup 1 (star any) ~~ nl) (cline_text c) = Some k /\ captured 1 k = snd c
  else full_match (T mark ~~ RGroup 1 (star any) ~~ nl) (cline_text c) = None.
Proof.
  intros L [_ O]. destruct (N.eqb_spec (fst c) x) as [E|E].
  - destruct (line_forward mark (snd c) O) as (k & M & C). exists k. rewrite L in M. cbn [app] in M. unfold cline_text. rewrite E. auto.
  - destruct (full_match _ _) as [k|] eqn:M; [|reflexivity]. apply line_inv in M as (t & _ & M & _). rewrite L in M. unfold cline_text in M.
    apply (f_equal (@hd chr 0%N)) in M. cbn in M. congruence.
Qed.
Lemma marked_starts mark x cs : lit mark = [x; SP] -> Forall cline_ok cs ->
  starts_matching (T mark ~~ RGroup 1 (star any) ~~ nl) (map cline_text cs) = true <-> next_mark cs = Some x.
Proof.
  intros L F. destruct cs as [|c cs]; cbn [map starts_matching next_mark]; [split; discriminate|].
  inversion F as [|? ? O _]; subst. pose proof (marked_match mark x c L O) as M. unfold has_match.
  destruct (N.eqb_spec (fst c) x) as [E|E].
  - destruct M as (k & -> & _). rewrite E. tauto.
  - rewrite M. split; [discriminate|]. intros X. injection X as X. contradiction.
Qed.
Lemma marked_take mark x cs : lit mark = [x; SP] -> Forall cline_ok cs -> forall ts rest,
  take_matching (T mark ~~ RGroup 1 (star any) ~~ nl) (map cline_text cs) = (ts, rest) ->
  exists cs', rest = map cline_text cs' /\ Forall cline_ok cs' /\ cs = all_marked x ts ++ cs' /\ next_mark cs' <> Some x.
Proof.
  intros L. induction 1 as [|c cs O F IH]; intros ts rest H; cbn [map take_matching] in H.
  - injection H as <- <-. exists []. repeat split; auto. discriminate.
  - pose proof (marked_match mark x c L O) as M. destruct (N.eqb_spec (fst c) x) as [E|E].
    + destruct M as (k & M & C). rewrite M in H. destruct (take_matching _ (map cline_text cs)) as [ts' r']. injection H as <- <-.
      destruct (IH _ _ eq_refl) as (cs' & -> & F' & -> & N). exists cs'. repeat split; auto. rewrite C. cbn [all_marked map app]. rewrite <- E.
      destruct c; reflexivity.
    + rewrite M in H. injection H as <- <-. exists (c :: cs). repeat split; auto. cbn [next_mark]. intros X. injection X as X. contradiction.
Qed.
Lemma over_or cs : Forall cline_ok cs -> end_or_context (map cline_text cs) = true <-> over_or_common cs.
Proof.
  intros F. unfold over_or_common. destruct cs as [|c cs]; [cbn; tauto|].
  pose proof (marked_starts "  " SP (c :: cs) eq_refl F) as M. unfold context_context in *. cbn [map starts_matching end_or_context] in *.
  unfold context_context. rewrite M. split; [auto|]. intros [X|X]; [discriminate|exact X].
Qed.
Lemma context_text_cline c : cline_ok c -> fst c = SP -> context_text (cline_text c) = snd c.
Proof.
  intros O E. pose proof (marked_match "  " SP c eq_refl O) as M. rewrite E, N.eqb_refl in M. destruct M as (k & M & C).
  unfold context_text, context_context. rewrite M. exact C.
Qed.
Lemma both_split fuel : forall old new, (length old + length new <= fuel)%nat -> Forall cline_ok old -> Forall cline_ok new -> forall ts o n,
  take_both fuel (map cline_text old) (map cline_text new) = (ts, o, n) ->
  exists os ns old' new', o = map cline_text old' /\ n = map cline_text new' /\ Forall cline_ok old' /\ Forall cline_ok new' /\
    old = all_marked SP os ++ old' /\ new = all_marked SP ns ++ new' /\ ts = ns ++ skipn (length ns) os /\
    (length os = length ns \/ ((length os < length ns)%nat /\ old' = []) \/ ((length ns < length os)%nat /\ new' = [])) /\
    ~ (over_or_common old' /\ over_or_common new' /\ (old' <> [] \/ new' <> [])).
Proof.
  induction fuel as [|fuel IH]; intros old new L FO FN ts o n H; cbn [take_both] in H.
  - destruct old; [|cbn in L; lia]. destruct new; [|cbn in L; lia]. injection H as <- <- <-. exists [], [], [], []. repeat split; auto. intros (_ & _ & [X|X]); auto.
  - destruct (_ && _)%bool eqn:E.
    + apply andb_true_iff in E as [E E3]. apply andb_true_iff in E as [E1 E2]. apply over_or in E1; [|exact FO]. apply over_or in E2; [|exact FN].
      destruct (take_both fuel (tl (map cline_text old)) (tl (map cline_text new))) as [[ts' o'] n'] eqn:ER. injection H as <- <- <-.
      assert (ML : forall l, tl (map cline_text l) = map cline_text (tl l)) by (destruct l; reflexivity).
      rewrite !ML in ER.
      assert (FT : forall l, Forall cline_ok l -> Forall cline_ok (tl l)) by (intros l F; destruct F; cbn; auto).
      apply IH in ER; [|destruct old, new; cbn in *; try discriminate; lia|apply FT; exact FO|apply FT; exact FN].
      destruct ER as (os & ns & old' & new' & -> & -> & G1 & G2 & Q1 & Q2 & -> & Q3 & Q4).
      destruct old as [|co old]; destruct new as [|cn new]; cbn [tl map] in *; try discriminate.
      * symmetry in Q1. apply app_eq_nil in Q1 as [Q1 ->]. destruct os; [|discriminate].
        exists [], (snd cn :: ns), [], new'. inversion FN as [|? ? ON _]; subst. destruct E2 as [E2|E2]; [discriminate|]. cbn in E2. injection E2 as E2.
        repeat split; auto.
        -- cbn [all_marked map app]. rewrite <- E2. destruct cn; reflexivity.
        -- rewrite context_text_cline by auto. rewrite ?skipn_nil. reflexivity.
        -- right. left. split; [cbn; lia|reflexivity].
      * symmetry in Q2. apply app_eq_nil in Q2 as [Q2 ->]. destruct ns; [|discriminate].
        exists (snd co :: os), [], old', []. inversion FO as [|? ? OO _]; subst. destruct E1 as [E1|E1]; [discriminate|]. cbn in E1. injection E1 as E1.
        repeat split; auto.
        -- cbn [all_marked map app]. rewrite <- E1. destruct co; reflexivity.
        -- rewrite context_text_cline by auto. rewrite ?skipn_nil. reflexivity.
        -- right. right. split; [cbn; lia|reflexivity].
      * exists (snd co :: os), (snd cn :: ns), old', new'. inversion FO as [|? ? OO _]; subst. inversion FN as [|? ? ON _]; subst.
        destruct E1 as [E1|E1]; [discriminate|]. destruct E2 as [E2|E2]; [discriminate|]. cbn in E1, E2. injection E1 as E1. injection E2 as E2.
        repeat split; auto.
        -- cbn [all_marked map app]. rewrite <- E1. destruct co; reflexivity.
        -- cbn [all_marked map app]. rewrite <- E2. destruct cn; reflexivity.
        -- rewrite context_text_cline by auto. rewrite ?skipn_nil. reflexivity.
        -- cbn [length]. destruct Q3 as [Q3|[[Q3 Q5]|[Q3 Q5]]]; [left; lia|right; left; split; [lia|exact Q5]|right; right; split; [lia|exact Q5]].
    + injection H as <- <- <-. exists [], [], old, new. repeat split; auto. intros (A & B & C).
      rewrite !andb_false_iff in E. destruct E as [[E|E]|E].
      * apply over_or in A; [|exact FO]. congruence.
      * apply over_or in B; [|exact FN]. congruence.
      * destruct old, new; cbn in E; try discriminate. destruct C; auto.
Qed.

(** * The two sides of a hunk *)
Lemma shows_of sl dl a b ty d : determine_inline (with_texts sl dl (new_diff a b ty)) = Ok d -> shows d ty sl dl.
Proof. intros H. apply inline_texts in H as (_ & _ & _ & _ & A & B & C). repeat split; assumption. Qed.
Lemma cline_cases c : cline_ok c -> fst c = MINUS \/ fst c = PLUS \/ fst c = BANG \/ fst c = SP.
Proof.
  intros [I _]. change (lit "-+! ") with [MINUS; PLUS; BANG; SP] in I. cbn [In] in I.
  destruct I as [I|[I|[I|[I|[]]]]]; [left|right; left|right; right; left|right; right; right]; congruence.
Qed.
Lemma paired_ok fuel : forall a b old new ds, Forall cline_ok old -> Forall cline_ok new ->
  context_body_loop fuel a b (map cline_text old) (map cline_text new) = Ok ds -> paired old new ds.
Proof.
  induction fuel as [|fuel IH]; intros a b old new ds FO FN H; [discriminate|].
  assert (D : (old = [] /\ new = []) \/ (old <> [] \/ new <> [])) by (destruct old; [destruct new|]; [left; auto|right; right; discriminate|right; left; discriminate]).
  destruct D as [[-> ->]|D]; [injection H as <-; constructor|].
  cbn [context_body_loop] in H.
  match type of H with context [if starts_matching context_removed _ then ?X else ?Y] =>
    assert (G : (if starts_matching context_removed (map cline_text old) then X else Y) = Ok ds) end.
  { destruct old as [|? old]; [destruct new as [|? new]|]; [destruct D; contradiction|exact H|exact H]. }
  clear H. rename G into H.
  unfold context_removed, context_added, context_changed in H.
  destruct (starts_matching (T "- " ~~ _) _) eqn:E1.
  { apply (marked_starts "- " MINUS) in E1; [|reflexivity|exact FO].
    destruct (take_matching _ (map cline_text old)) as [ts o] eqn:ET. apply (marked_take "- " MINUS) in ET as (old' & -> & F' & -> & NM); [|reflexivity|exact FO].
    destruct (determine_inline _) as [d| |] eqn:EI; try discriminate. cbn [bind] in H.
    destruct (context_body_loop _ _ _ _ _) as [ds'| |] eqn:EL; try discriminate. injection H as <-.
    apply shows_of in EI. apply pr_removed; auto.
    - intros ->. cbn in E1. contradiction.
    - eapply IH; [| |exact EL]; assumption. }
  assert (N1 : next_mark old <> Some MINUS).
  { intros X. apply (marked_starts "- " MINUS) in X; [|reflexivity|exact FO]. congruence. }
  destruct (starts_matching (T "+ " ~~ _) _) eqn:E2.
  { apply (marked_starts "+ " PLUS) in E2; [|reflexivity|exact FN].
    destruct (take_matching _ (map cline_text new)) as [ts o] eqn:ET. apply (marked_take "+ " PLUS) in ET as (new' & -> & F' & -> & NM); [|reflexivity|exact FN].
    destruct (determine_inline _) as [d| |] eqn:EI; try discriminate. cbn [bind] in H.
    destruct (context_body_loop _ _ _ _ _) as [ds'| |] eqn:EL; try discriminate. injection H as <-.
    apply shows_of in EI. apply pr_added; auto.
    - intros ->. cbn in E2. contradiction.
    - eapply IH; [| |exact EL]; assumption. }
  assert (N2 : next_mark new <> Some PLUS).
  { intros X. apply (marked_starts "+ " PLUS) in X; [|reflexivity|exact FN]. congruence. }
  destruct (_ && _)%bool eqn:E3.
  { apply andb_true_iff in E3 as [E3 E4]. apply over_or in E3; [|exact FO]. apply over_or in E4; [|exact FN].
    destruct (take_both _ _ _) as [[ts o] n] eqn:ET. apply both_split in ET; [|rewrite !map_length; lia|exact FO|exact FN].
    destruct ET as (os & ns & old' & new' & -> & -> & G1 & G2 & -> & -> & -> & Q1 & Q2).
    destruct (determine_inline _) as [d| |] eqn:EI; try discriminate. cbn [bind] in H.
    destruct (context_body_loop _ _ _ _ _) as [ds'| |] eqn:EL; try discriminate. injection H as <-.
    apply shows_of in EI. apply pr_common; auto.
    - destruct os; [|left; discriminate]. destruct ns; [|right; discriminate]. cbn in *. exfalso. apply Q2. auto.
    - eapply IH; [| |exact EL]; assumption. }
  assert (N3 : ~ (over_or_common old /\ over_or_common new)).
  { intros [A B]. apply over_or in A; [|exact FO]. apply over_or in B; [|exact FN]. rewrite A, B in E3. discriminate. }
  destruct (_ || _)%bool eqn:E4.
  { destruct (take_matching _ (map cline_text old)) as [ts1 o] eqn:ET1. destruct (take_matching _ (map cline_text new)) as [ts2 n] eqn:ET2.
    apply (marked_take "! " BANG) in ET1 as (old' & -> & F1 & -> & NM1); [|reflexivity|exact FO].
    apply (marked_take "! " BANG) in ET2 as (new' & -> & F2 & -> & NM2); [|reflexivity|exact FN].
    destruct (determine_inline _) as [d| |] eqn:EI; try discriminate. cbn [bind] in H.
    destruct (context_body_loop _ _ _ _ _) as [ds'| |] eqn:EL; try discriminate. injection H as <-.
    apply shows_of in EI. apply pr_changed; auto.
    - apply orb_true_iff in E4 as [E4|E4]; [left|right]; intros ->; apply (marked_starts "! " BANG) in E4; try assumption; try reflexivity; contradiction.
    - intros ->. exact N1.
    - intros ->. exact N2.
    - eapply IH; [| |exact EL]; assumption. }
  injection H as <-. apply orb_false_iff in E4 as [E4 E5].
  assert (N4 : next_mark old <> Some BANG) by (intros X; apply (marked_starts "! " BANG) in X; [congruence|reflexivity|exact FO]).
  assert (N5 : next_mark new <> Some BANG) by (intros X; apply (marked_starts "! " BANG) in X; [congruence|reflexivity|exact FN]).
  apply pr_wrong_side; auto.
  assert (C : forall l, Forall cline_ok l -> over_or_common l \/ next_mark l = Some MINUS \/ next_mark l = Some PLUS \/ next_mark l = Some BANG).
  { intros l F. destruct F as [|c l O F]; [left; left; reflexivity|]. cbn [next_mark]. destruct (cline_cases c O) as [X|[X|[X|X]]]; rewrite X; auto.
    left. right. cbn. now rewrite X. }
  destruct (C _ FO) as [A|[A|[A|A]]]; destruct (C _ FN) as [B|[B|[B|B]]]; auto; try contradiction. exfalso; auto.
Qed.

(** * Header lines of hunks *)
Lemma star_match l f : star_line l f -> exists c, full_match context_hunk_header1 l = Some c /\ captured 1 c = f.
Proof.
  intros H. unfold full_match, context_hunk_header1. destruct H as [f O|f O N].
  - rewrite m_seq. unfold T. rewrite s_text, m_seq. unfold opt. rewrite m_alt, s_is. erewrite any_rest; [|exact O|reflexivity].
    eexists. split; [reflexivity|]. reflexivity.
  - rewrite m_seq. unfold T. rewrite s_text, m_seq. unfold opt. rewrite m_alt.
    assert (M : forall k, matches (is SP) k (f ++ [NL]) [] = None :> option caps).
    { intros k. destruct f as [|x f]; [cbn [app]; now rewrite s_is_other by discriminate|]. cbn [app]. rewrite s_is_other; [reflexivity|]. intros <-. eapply N; reflexivity. }
    rewrite M, m_eps. erewrite any_rest; [|exact O|reflexivity]. eexists. split; reflexivity.
Qed.
Lemma match_star l c : full_match context_hunk_header1 l = Some c -> star_line l (captured 1 c).
Proof.
  intros H. assert (E : exists f, star_line l f).
  { unfold full_match, context_hunk_header1 in H. rewrite m_seq in H. unfold T in H. apply i_text in H as (s & -> & H). rewrite m_seq in H.
    unfold opt in H. apply i_alt in H as [H|[_ H]].
    - apply i_is in H as (r & -> & H). apply any_end_inv in H as (u & U & ->). exists u. now apply sl_blank.
    - rewrite m_eps in H. apply any_end_inv in H as (u & U & ->). destruct u as [|x u]; [exists []; apply sl_none; [exact U|discriminate]|].
      destruct (N.eq_dec x SP) as [->|N].
      + exists u. apply (sl_blank u). intros I. apply U. right. exact I.
      + exists (x :: u). apply sl_none; [exact U|]. intros y X. injection X as -> _. contradiction. }
  destruct E as (f & S). destruct (star_match _ _ S) as (c' & M & <-). rewrite H in M. injection M as <-. exact S.
Qed.
Lemma digits_stop (x : chr) k : is_digit x = false -> match x :: k with y :: _ => is_digit y = false | [] => True end.
Proof. auto. Qed.
Lemma old_range_match l a : old_range l a -> exists c, full_match context_hunk_header2 l = Some c /\ to_int (captured 1 c) = a.
Proof.
  intros [n k x [N1 N2] [K1 K2] O]. eexists. split.
  - unfold full_match, context_hunk_header2. rewrite m_seq. unfold T at 1. rewrite s_text, m_seq, m_group. unfold digits, digit at 1.
    apply s_plus_longest; [exact N1|exact N2|reflexivity|]. rewrite m_seq. unfold T at 1. rewrite s_text, m_seq, m_group. unfold digits, digit.
    apply s_plus_longest; [exact K1|exact K2|reflexivity|]. rewrite m_seq. unfold T at 1. rewrite s_text, m_seq. unfold star, any.
    apply m_star_longest; [now apply not_nl_any|reflexivity|]. unfold nl. rewrite s_is. reflexivity.
  - cbn [captured Nat.eqb]. rewrite group_text. apply to_int_reads. split; assumption.
Qed.
Lemma match_old_range l c : full_match context_hunk_header2 l = Some c -> old_range l (to_int (captured 1 c)).
Proof.
  intros H. assert (E : exists a, old_range l a).
  { unfold full_match, context_hunk_header2 in H. rewrite m_seq in H. unfold T at 1 in H. apply i_text in H as (s & -> & H).
    rewrite m_seq, m_group in H. apply i_digits in H as (n & r1 & -> & N1 & N2 & H). rewrite m_seq in H. unfold T at 1 in H. apply i_text in H as (s2 & -> & H).
    rewrite m_seq, m_group in H. apply i_digits in H as (k & r2 & -> & K1 & K2 & H). rewrite m_seq in H. unfold T at 1 in H. apply i_text in H as (s3 & -> & H).
    rewrite m_seq in H. unfold star, any in H. apply i_star in H as (w & rest & -> & W & H). apply not_nl_any in W. inv_match H. apply end_inv in H as [-> _].
    exists (reads n). apply or_intro; [split; assumption|split; assumption|exact W]. }
  destruct E as (a & S). destruct (old_range_match _ _ S) as (c' & M & <-). rewrite H in M. injection M as <-. exact S.
Qed.
Lemma new_range_match l a : new_range l a -> exists c, full_match context_hunk_header3 l = Some c /\ to_int (captured 1 c) = a.
Proof.
  intros [n k [N1 N2] [K1 K2]]. eexists. split.
  - unfold full_match, context_hunk_header3. rewrite m_seq. unfold T at 1. rewrite s_text, m_seq, m_group. unfold digits, digit at 1.
    apply s_plus_longest; [exact N1|exact N2|reflexivity|]. rewrite m_seq. unfold T at 1. rewrite s_text, m_seq, m_group. unfold digits, digit.
    apply s_plus_longest; [exact K1|exact K2|reflexivity|]. rewrite m_seq. unfold T at 1. rewrite s_text. unfold nl. rewrite s_is. reflexivity.
  - cbn [captured Nat.eqb]. rewrite group_text. apply to_int_reads. split; assumption.
Qed.
Lemma match_new_range l c : full_match context_hunk_header3 l = Some c -> new_range l (to_int (captured 1 c)).
Proof.
  intros H. assert (E : exists a, new_range l a).
  { unfold full_match, context_hunk_header3 in H. rewrite m_seq in H. unfold T at 1 in H. apply i_text in H as (s & -> & H).
    rewrite m_seq, m_group in H. apply i_digits in H as (n & r1 & -> & N1 & N2 & H). rewrite m_seq in H. unfold T at 1 in H. apply i_text in H as (s2 & -> & H).
    rewrite m_seq, m_group in H. apply i_digits in H as (k & r2 & -> & K1 & K2 & H). rewrite m_seq in H. unfold T at 1 in H. apply i_text in H as (s3 & -> & H).
    inv_match H. apply end_inv in H as [-> _]. exists (reads n). apply nr_intro; split; assumption. }
  destruct E as (a & S). destruct (new_range_match _ _ S) as (c' & M & <-). rewrite H in M. injection M as <-. exact S.
Qed.

(** * Hunks *)
Lemma chunks_ok fuel : forall ls m m' rest hs, contents m hs -> context_hunks fuel ls m = Ok (m', rest) ->
  exists new, chunks ls new rest /\ contents m' (hs ++ new) /\ (forall st, with_contents m' [] [] st = with_contents m [] [] st).
Proof.
  assert (NO : forall re (P : str -> Prop), (forall l, P l -> exists c, full_match re l = Some c) -> forall l, full_match re l = None -> ~ P l).
  { intros re P K l E X. apply K in X as (c & X). pose proof (eq_trans (eq_sym E) X) as Y. discriminate Y. }
  assert (NS : forall l, full_match context_hunk_header1 l = None -> forall f, ~ star_line l f).
  { intros l E f. revert l E. apply NO. intros l S. apply star_match in S as (c & M & _). eauto. }
  assert (N2 : forall l, full_match context_hunk_header2 l = None -> forall a, ~ old_range l a).
  { intros l E f. revert l E. apply NO. intros l S. apply old_range_match in S as (c & M & _). eauto. }
  assert (N3 : forall l, full_match context_hunk_header3 l = None -> forall a, ~ new_range l a).
  { intros l E f. revert l E. apply NO. intros l S. apply new_range_match in S as (c & M & _). eauto. }
  clear NO. induction fuel as [|fuel IH]; intros ls m m' rest hs HC H; [discriminate|]. cbn [context_hunks] in H.
  unfold context_hunk_header_at in H. destruct ls as [|l ls].
  { injection H as <- <-. exists []. rewrite app_nil_r. split; [|auto]. apply ck_end. intros; discriminate. }
  destruct (full_match context_hunk_header1 l) as [c1|] eqn:E1.
  2: { injection H as <- <-. exists []. rewrite app_nil_r. split; [|auto]. apply ck_end. intros l' r' f X. injection X as <- _. now apply NS. }
  pose proof (match_star _ _ E1) as S1.
  destruct ls as [|l2 ls].
  { injection H as <- <-. exists []. rewrite app_nil_r. split; [|auto]. eapply ck_alone; [exact S1|]. intros; discriminate. }
  destruct (full_match context_hunk_header2 l2) as [c2|] eqn:E2.
  2: { injection H as <- <-. exists []. rewrite app_nil_r. split; [|auto]. eapply ck_alone; [exact S1|]. intros l' r' f X. injection X as <- _. now apply N2. }
  pose proof (match_old_range _ _ E2) as S2.
  destruct (context_hunk_body c1 c2 ls m) as [[m1 ls1]| |] eqn:EB; try discriminate. cbn [bind] in H.
  unfold context_hunk_body in EB. destruct (take_context_lines ls) as [old r] eqn:EO.
  apply cline_split in EO as (co & -> & FO & -> & NC).
  destruct r as [|l3 r]; [discriminate|].
  destruct (full_match context_hunk_header3 l3) as [c3|] eqn:E3.
  2: { injection EB as <- <-. apply (IH _ _ _ _ _ HC) in H as (new & CK & HC' & W). exists new. split; [|auto].
       eapply ck_dropped; eauto. }
  pose proof (match_new_range _ _ E3) as S3.
  destruct (take_context_lines r) as [new rest'] eqn:EN. apply cline_split in EN as (cn & -> & FN & -> & NC').
  destruct (context_body_loop _ _ _ _ _) as [ds| |] eqn:EL; try discriminate. cbn [bind] in EB.
  rewrite add_parsed_hunk_ok in EB. cbn [bind] in EB. injection EB as <- <-.
  pose proof (paired_ok _ _ _ _ _ _ FO FN EL) as PR. apply context_body_ok in EL as [CT RW].
  match type of H with context_hunks _ _ ?mm = _ => remember mm as m1 eqn:EM end.
  assert (HC1 : contents m1 (hs ++ [(mk_hunk (to_int (captured 1 c2)) (to_int (captured 1 c3)) (captured 1 c1) HNormal (seq (length (dm_store m)) (length ds)), map linked ds)])).
  { rewrite EM. apply contents_add. exact HC. }
  assert (W1 : forall st, with_contents m1 [] [] st = with_contents m [] [] st) by (rewrite EM; reflexivity).
  clear EM. apply (IH _ _ _ _ _ HC1) in H as (more & CK & HC2 & W2). rewrite <- app_assoc in HC2. cbn [app] in HC2.
  eexists. split; [|split; [exact HC2|intros st; rewrite W2; apply W1]].
  assert (PL : forall o n l, paired o n l -> paired o n (map linked l)).
  { assert (SL : forall d ty s n, shows d ty s n -> shows (linked d) ty s n).
    { intros d ty s n (A & B & C). destruct (linked_fields d) as (L1 & _ & _ & _ & L2 & L3). unfold shows. rewrite L1, L2, L3. auto. }
    intros o n ds0 K. induction K; cbn [map]; [apply pr_end|apply pr_removed|apply pr_added|apply pr_common|apply pr_changed|apply pr_wrong_side]; auto. }
  eapply ck_hunk; try eassumption; try reflexivity.
  - now apply PL.
  - now apply linked_contiguous.
  - apply Forall_map. eapply Forall_impl; [|exact RW]. exact linked_pristine.
Qed.
