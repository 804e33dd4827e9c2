(** When reading a text is undefined: hunks of context diffs. *)
From Coq Require Import String Permutation.
From Verif Require Import Base QtStr Lev Diff Regex Patterns Parser SpecEdit SpecInline SpecPatch SpecParse SpecNormal SpecLines SpecCrash
  PRegex PStar PLevTable PLev PHistory PEditLines PParse PUnified PHeaders PFileHeads PUnifiedDoc PFuel PAnyInput PNormal PLines PLineChunks PLineSame PLineUnified PCrash.
Local Open Scope Z_scope.

(** What a round does, by its kind. *)
Lemma body_round fuel a b old new : Forall cline_ok old -> Forall cline_ok new ->
  match kind_of old new with
  | KEnd | KWrong => context_body_loop (S fuel) a b (map cline_text old) (map cline_text new) = Ok []
  | KRemoved => exists ts old' d, old = all_marked MINUS ts ++ old' /\ Forall cline_ok old' /\ ts <> [] /\ next_mark old' <> Some MINUS /\
      context_body_loop (S fuel) a b (map cline_text old) (map cline_text new) =
      (do ds <- context_body_loop fuel (a + Z.of_nat (length ts)) b (map cline_text old') (map cline_text new); Ok (d :: ds))
  | KAdded => exists ts new' d, new = all_marked PLUS ts ++ new' /\ Forall cline_ok new' /\ ts <> [] /\ next_mark new' <> Some PLUS /\
      context_body_loop (S fuel) a b (map cline_text old) (map cline_text new) =
      (do ds <- context_body_loop fuel a (b + Z.of_nat (length ts)) (map cline_text old) (map cline_text new'); Ok (d :: ds))
  | KCommon => exists os ns old' new' d, old = all_marked SP os ++ old' /\ new = all_marked SP ns ++ new' /\ Forall cline_ok old' /\ Forall cline_ok new' /\ (os <> [] \/ ns <> []) /\
      (length os = length ns \/ ((length os < length ns)%nat /\ old' = []) \/ ((length ns < length os)%nat /\ new' = [])) /\
      ~ (over_or_common old' /\ over_or_common new' /\ (old' <> [] \/ new' <> [])) /\
      exists a' b', context_body_loop (S fuel) a b (map cline_text old) (map cline_text new) =
      (do ds <- context_body_loop fuel a' b' (map cline_text old') (map cline_text new'); Ok (d :: ds))
  | KChanged => exists os ns old' new', old = all_marked BANG os ++ old' /\ new = all_marked BANG ns ++ new' /\ Forall cline_ok old' /\ Forall cline_ok new' /\ (os <> [] \/ ns <> []) /\
      next_mark old' <> Some BANG /\ next_mark new' <> Some BANG /\
      ((wrapping os ns /\ exists why, context_body_loop (S fuel) a b (map cline_text old) (map cline_text new) = UB why) \/
       (~ wrapping os ns /\ exists d a' b', context_body_loop (S fuel) a b (map cline_text old) (map cline_text new) =
         (do ds <- context_body_loop fuel a' b' (map cline_text old') (map cline_text new'); Ok (d :: ds))))
  end.
Proof.
  intros FO FN.
  assert (D : (old = [] /\ new = []) \/ (old <> [] \/ new <> [])) by (destruct old; [destruct new|]; [left; auto|right; right; discriminate|right; left; discriminate]).
  destruct D as [[-> ->]|D]; [reflexivity|].
  assert (G : forall X Y, (match map cline_text old, map cline_text new with [], [] => X | _, _ => Y end) = Y :> res (list difference)).
  { intros X Y. destruct old as [|? old]; [destruct new as [|? new]|]; [destruct D as [D|D]; destruct (D eq_refl)|reflexivity|reflexivity]. }
  assert (E : context_body_loop (S fuel) a b (map cline_text old) (map cline_text new) = 
    (if starts_matching context_removed (map cline_text old) then
            let '(ts, old) := take_matching context_removed (map cline_text old) in
            do d <- determine_inline (with_texts ts [] (new_diff a b Delete));
            do ds <- context_body_loop fuel (a + Z.of_nat (length ts)) b old (map cline_text new);
            Ok (d :: ds)
          else if starts_matching context_added (map cline_text new) then
            let '(ts, new) := take_matching context_added (map cline_text new) in
            do d <- determine_inline (with_texts [] ts (new_diff a b Insert));
            do ds <- context_body_loop fuel a (b + Z.of_nat (length ts)) (map cline_text old) new;
            Ok (d :: ds)
          else if (end_or_context (map cline_text old) && end_or_context (map cline_text new))%bool then
            let '(ts, old, new) := take_both (length (map cline_text old) + length (map cline_text new)) (map cline_text old) (map cline_text new) in
            do d <- determine_inline (with_texts ts ts (new_diff a b Unchanged));
            do ds <- context_body_loop fuel (a + Z.of_nat (length ts)) (b + Z.of_nat (length ts)) old new;
            Ok (d :: ds)
          else if (starts_matching context_changed (map cline_text old) || starts_matching context_changed (map cline_text new))%bool then
            let '(ts1, old) := take_matching context_changed (map cline_text old) in
            let '(ts2, new) := take_matching context_changed (map cline_text new) in
            do d <- determine_inline (with_texts ts1 ts2 (new_diff a b Change));
            do ds <- context_body_loop fuel (a + Z.of_nat (length ts1)) (b + Z.of_nat (length ts2)) old new;
            Ok (d :: ds)
          else Ok [])).
  { cbn [context_body_loop]. apply G. }
  clear G.
  assert (SM : forall (mark : string) x cs, lit mark = [x; SP] -> Forall cline_ok cs -> starts_matching (T mark ~~ RGroup 1 (star any) ~~ nl) (map cline_text cs) = mark_is x cs).
  { clear. intros mark x cs L F. pose proof (marked_starts mark x cs L F) as K. destruct (mark_is x cs) eqn:M.
    - apply K. now apply mark_is_iff.
    - destruct (starts_matching _ _) eqn:Q; [|reflexivity]. apply mark_is_not in M. destruct M. now apply K. }
  assert (OV : forall cs, Forall cline_ok cs -> end_or_context (map cline_text cs) = overb cs).
  { clear. intros cs F. pose proof (over_or cs F) as K. destruct (overb cs) eqn:M.
    - apply K. now apply overb_iff.
    - destruct (end_or_context _) eqn:Q; [|reflexivity]. pose proof (proj2 (overb_iff cs) (proj1 K eq_refl)). congruence. }
  unfold context_removed, context_added, context_changed in E.
  unfold kind_of. rewrite (SM "- "%string MINUS old eq_refl FO) in E.
  destruct (mark_is MINUS old) eqn:E1.
  { destruct (take_matching _ (map cline_text old)) as [ts o] eqn:ET. apply (marked_take "- " MINUS) in ET as (old' & -> & F' & -> & NM); [|reflexivity|exact FO].
    destruct (texts_cases ts [] a b Delete) as [(X & _)|(_ & d & EI)]; [discriminate|]. rewrite EI in E. cbn [bind] in E.
    exists ts, old', d. split; [reflexivity|]. split; [exact F'|]. split; [|split; [exact NM|exact E]]. intros ->. cbn in E1. apply mark_is_iff in E1. contradiction. }
  rewrite (SM "+ "%string PLUS new eq_refl FN) in E. destruct (mark_is PLUS new) eqn:E2.
  { destruct (take_matching _ (map cline_text new)) as [ts o] eqn:ET. apply (marked_take "+ " PLUS) in ET as (new' & -> & F' & -> & NM); [|reflexivity|exact FN].
    destruct (texts_cases [] ts a b Insert) as [(X & _)|(_ & d & EI)]; [discriminate|]. rewrite EI in E. cbn [bind] in E.
    exists ts, new', d. split; [reflexivity|]. split; [exact F'|]. split; [|split; [exact NM|exact E]]. intros ->. cbn in E2. apply mark_is_iff in E2. contradiction. }
  rewrite (OV old FO), (OV new FN) in E. destruct (overb old && overb new)%bool eqn:E3.
  { apply andb_true_iff in E3 as [E3 E4]. apply overb_iff in E3. apply overb_iff in E4.
    destruct (take_both _ _ _) as [[ts o] n] eqn:ET. apply both_split in ET; [|rewrite !map_length; lia|exact FO|exact FN].
    destruct ET as (os & ns & old' & new' & -> & -> & G1 & G2 & EO & EN & -> & Q1 & Q2).
    destruct (texts_cases (ns ++ skipn (length ns) os) (ns ++ skipn (length ns) os) a b Unchanged) as [(X & _)|(_ & d & EI)]; [discriminate|]. rewrite EI in E. cbn [bind] in E.
    assert (K : exists os ns old' new' d, old = all_marked SP os ++ old' /\ new = all_marked SP ns ++ new' /\ Forall cline_ok old' /\ Forall cline_ok new' /\ (os <> [] \/ ns <> []) /\
      (length os = length ns \/ ((length os < length ns)%nat /\ old' = []) \/ ((length ns < length os)%nat /\ new' = [])) /\
      ~ (over_or_common old' /\ over_or_common new' /\ (old' <> [] \/ new' <> [])) /\
      exists a' b', context_body_loop (S fuel) a b (map cline_text old) (map cline_text new) =
      (do ds <- context_body_loop fuel a' b' (map cline_text old') (map cline_text new'); Ok (d :: ds))).
    { exists os, ns, old', new', d. do 4 (split; [assumption|]). split; [|split; [exact Q1|split; [exact Q2|eauto]]].
      destruct os; [|left; discriminate]. destruct ns; [|right; discriminate]. exfalso. cbn [all_marked map app] in EO, EN. subst old' new'. apply Q2. auto. }
    destruct old as [|x old]; [destruct new as [|y new]|]; [destruct D as [D|D]; destruct (D eq_refl)|exact K|exact K]. }
  rewrite (SM "! "%string BANG old eq_refl FO), (SM "! "%string BANG new eq_refl FN) in E. destruct (mark_is BANG old || mark_is BANG new)%bool eqn:E4; [|exact E].
  destruct (take_matching _ (map cline_text old)) as [ts1 o] eqn:ET1. destruct (take_matching _ (map cline_text new)) as [ts2 n] eqn:ET2.
  apply (marked_take "! " BANG) in ET1 as (old' & -> & F1 & EO & NM1); [|reflexivity|exact FO].
  apply (marked_take "! " BANG) in ET2 as (new' & -> & F2 & EN & NM2); [|reflexivity|exact FN].
  exists ts1, ts2, old', new'. do 4 (split; [assumption|]). split; [|split; [exact NM1|split; [exact NM2|]]].
  - apply orb_true_iff in E4 as [E4|E4]; apply mark_is_iff in E4; [left|right]; intros ->; cbn [all_marked map app] in *; subst; contradiction.
  - destruct (texts_cases ts1 ts2 a b Change) as [(_ & W & why & EI)|(W & d & EI)]; rewrite EI in E; cbn [bind] in E; [left; eauto|right].
    split; [|eauto]. intros X. apply W. auto.
Qed.
Lemma paired_cases fuel : forall a b old new, Forall cline_ok old -> Forall cline_ok new ->
  (exists why, context_body_loop fuel a b (map cline_text old) (map cline_text new) = UB why) -> paired_crash old new.
Proof.
  assert (BU : forall (r : res (list difference)) d why, (do ds <- r; Ok (d :: ds)) = UB why -> exists why, r = UB why).
  { intros [x|w|] d why H; try discriminate. eauto. }
  induction fuel as [|fuel IH]; intros a b old new FO FN [why H]; [discriminate|].
  pose proof (body_round fuel a b old new FO FN) as R. unfold kind_of in R.
  destruct (mark_is MINUS old) eqn:E1.
  { destruct R as (ts & old' & d & EO & F & NE & NM & E). rewrite E in H. apply BU in H. subst old. apply dc_removed; auto. eapply IH; [| |exact H]; assumption. }
  apply mark_is_not in E1. destruct (mark_is PLUS new) eqn:E2.
  { destruct R as (ts & new' & d & EN & F & NE & NM & E). rewrite E in H. apply BU in H. subst new. apply dc_added; auto. eapply IH; [| |exact H]; assumption. }
  apply mark_is_not in E2. destruct (overb old && overb new)%bool eqn:E3.
  { assert (K : old = [] /\ new = [] \/ (old <> [] \/ new <> [])) by (destruct old; [destruct new|]; [left; auto|right; right; discriminate|right; left; discriminate]).
    destruct K as [[-> ->]|K]; [pose proof (eq_trans (eq_sym R) H) as X; discriminate X|].
    assert (R' : exists os ns old' new' d, old = all_marked SP os ++ old' /\ new = all_marked SP ns ++ new' /\ Forall cline_ok old' /\ Forall cline_ok new' /\ (os <> [] \/ ns <> []) /\
      (length os = length ns \/ ((length os < length ns)%nat /\ old' = []) \/ ((length ns < length os)%nat /\ new' = [])) /\
      ~ (over_or_common old' /\ over_or_common new' /\ (old' <> [] \/ new' <> [])) /\
      exists a' b', context_body_loop (S fuel) a b (map cline_text old) (map cline_text new) =
      (do ds <- context_body_loop fuel a' b' (map cline_text old') (map cline_text new'); Ok (d :: ds))).
    { destruct old as [|x old]; [destruct new as [|y new]|]; [destruct K as [K|K]; destruct (K eq_refl)|exact R|exact R]. }
    destruct R' as (os & ns & old' & new' & d & EO & EN & F1 & F2 & NE & Q1 & Q2 & a' & b' & E). rewrite E in H. apply BU in H. subst old new.
    apply dc_common; auto. eapply IH; [| |exact H]; assumption. }
  destruct (mark_is BANG old || mark_is BANG new)%bool eqn:E4; [|pose proof (eq_trans (eq_sym R) H) as X; discriminate X].
  destruct R as (os & ns & old' & new' & EO & EN & F1 & F2 & NE & N1 & N2 & [[W _]|(_ & d & a' & b' & E)]); subst old new.
  - now apply dc_wraps.
  - rewrite E in H. apply BU in H. apply dc_changed; auto.
    + intros ->. exact E1.
    + intros ->. exact E2.
    + eapply IH; [| |exact H]; assumption.
Qed.
Lemma kind_removed ts old new : ts <> [] -> kind_of (all_marked MINUS ts ++ old) new = KRemoved.
Proof. intros NE. unfold kind_of. now rewrite mark_marked by exact NE. Qed.
Lemma kind_added ts old new : ts <> [] -> next_mark old <> Some MINUS -> kind_of old (all_marked PLUS ts ++ new) = KAdded.
Proof. intros NE N1. unfold kind_of. now rewrite (proj2 (mark_is_not MINUS old) N1), mark_marked by exact NE. Qed.
Lemma kind_common os ns old new : os <> [] \/ ns <> [] ->
  length os = length ns \/ ((length os < length ns)%nat /\ old = []) \/ ((length ns < length os)%nat /\ new = []) ->
  kind_of (all_marked SP os ++ old) (all_marked SP ns ++ new) = KCommon.
Proof.
  intros NE LE. unfold kind_of.
  assert (A : mark_is MINUS (all_marked SP os ++ old) = false /\ overb (all_marked SP os ++ old) = true).
  { destruct os as [|o os]; [|split; reflexivity]. destruct LE as [LE|[[LE ->]|[LE _]]]; [|split; reflexivity|cbn in LE; lia].
    destruct ns; [destruct NE; contradiction|discriminate LE]. }
  assert (B : mark_is PLUS (all_marked SP ns ++ new) = false /\ overb (all_marked SP ns ++ new) = true).
  { destruct ns as [|o ns]; [|split; reflexivity]. destruct LE as [LE|[[LE _]|[LE ->]]]; [|cbn in LE; lia|split; reflexivity].
    destruct os; [destruct NE; contradiction|discriminate LE]. }
  destruct A as [-> ->], B as [-> ->]. cbn [andb]. destruct os as [|o os]; [|reflexivity]. destruct ns as [|n ns]; [destruct NE; contradiction|].
  cbn [all_marked map app]. destruct old; reflexivity.
Qed.
Lemma kind_changed os ns old new : os <> [] \/ ns <> [] -> (os = [] -> next_mark old <> Some MINUS) -> (ns = [] -> next_mark new <> Some PLUS) ->
  kind_of (all_marked BANG os ++ old) (all_marked BANG ns ++ new) = KChanged.
Proof.
  intros NE N3 N4. unfold kind_of.
  assert (A : mark_is MINUS (all_marked BANG os ++ old) = false) by (destruct os; [apply mark_is_not; auto|reflexivity]).
  assert (B : mark_is PLUS (all_marked BANG ns ++ new) = false) by (destruct ns; [apply mark_is_not; auto|reflexivity]).
  rewrite A, B. destruct NE as [NE|NE].
  - rewrite (overb_marked BANG os old NE), (mark_marked BANG BANG os old NE). reflexivity.
  - rewrite (overb_marked BANG ns new NE), (mark_marked BANG BANG ns new NE), andb_false_r, orb_true_r. reflexivity.
Qed.
Lemma paired_sound old new : paired_crash old new -> Forall cline_ok old -> Forall cline_ok new -> forall fuel a b r,
  context_body_loop fuel a b (map cline_text old) (map cline_text new) <> Ok r.
Proof.
  assert (BO : forall (r : res (list difference)) d x, (do ds <- r; Ok (d :: ds)) = Ok x -> exists y, r = Ok y).
  { intros [y|w|] d x H; try discriminate. eauto. }
  induction 1 as [os ns old new N1 N2 W|ts old new NE NM X IH|ts old new NE N1 N2 X IH|os ns old new NE LE NO X IH|os ns old new NE N1 N2 N3 N4 X IH];
    intros FO FN [|fuel] a b r H; try discriminate; pose proof (body_round fuel a b _ _ FO FN) as R.
  - assert (NE : os <> [] /\ ns <> []).
    { destruct W as (_ & i & x & y & A & B & _). split; intros ->; destruct i; discriminate. }
    destruct NE as [A B]. rewrite kind_changed in R; [|auto|intros; contradiction|intros; contradiction].
    destruct R as (os' & ns' & old' & new' & EO & EN & F1 & F2 & NE & M1 & M2 & [[_ (why & E)]|(W' & _)]); [pose proof (eq_trans (eq_sym E) H) as Y; discriminate Y|].
    apply marked_same in EO as [-> _]; auto. apply marked_same in EN as [-> _]; auto.
  - rewrite kind_removed in R by exact NE. destruct R as (ts' & old' & d & EO & F & NE' & NM' & E). apply marked_same in EO as [<- <-]; auto.
    rewrite E in H. apply BO in H as [y H]. eapply IH; [| |exact H]; assumption.
  - rewrite kind_added in R by assumption. destruct R as (ts' & new' & d & EO & F & NE' & NM' & E). apply marked_same in EO as [<- <-]; auto.
    rewrite E in H. apply BO in H as [y H]. eapply IH; [| |exact H]; assumption.
  - rewrite kind_common in R by assumption. destruct R as (os' & ns' & old' & new' & d & EO & EN & F1 & F2 & NE' & Q1 & Q2 & a' & b' & E).
    destruct (both_same _ _ _ _ _ _ _ _ EO EN LE Q1 NO Q2) as (<- & <- & <- & <-). rewrite E in H. apply BO in H as [y H]. eapply IH; [| |exact H]; assumption.
  - rewrite kind_changed in R by assumption.
    destruct R as (os' & ns' & old' & new' & EO & EN & F1 & F2 & NE' & M1 & M2 & [[_ (why & E)]|(_ & d & a' & b' & E)]); [pose proof (eq_trans (eq_sym E) H) as Y; discriminate Y|].
    apply marked_same in EO as [<- <-]; auto. apply marked_same in EN as [<- <-]; auto. rewrite E in H. apply BO in H as [y H]. eapply IH; [| |exact H]; assumption.
Qed.
Lemma no_match (re : re) (P : str -> Prop) : (forall l, P l -> exists c, full_match re l = Some c) -> forall l, full_match re l = None -> ~ P l.
Proof. intros K l E X. apply K in X as (c & X). pose proof (eq_trans (eq_sym E) X) as Y. discriminate Y. Qed.
Lemma no_new_range l : full_match context_hunk_header3 l = None -> forall a, ~ new_range l a.
Proof. intros E f. revert l E. apply no_match. intros l S. apply new_range_match in S as (c & M & _). eauto. Qed.
Lemma chunks_cases fuel : forall ls m, (exists why, context_hunks fuel ls m = UB why) -> chunks_crash ls.
Proof.
  induction fuel as [|fuel IH]; intros ls m [why H]; [discriminate|]. cbn [context_hunks] in H. unfold context_hunk_header_at in H.
  destruct ls as [|l ls]; [discriminate|]. destruct (full_match context_hunk_header1 l) as [c1|] eqn:E1; [|discriminate].
  pose proof (match_star _ _ E1) as S1. destruct ls as [|l2 ls]; [discriminate|]. destruct (full_match context_hunk_header2 l2) as [c2|] eqn:E2; [|discriminate].
  pose proof (match_old_range _ _ E2) as S2. unfold context_hunk_body in H. destruct (take_context_lines ls) as [old r] eqn:EO.
  apply cline_split in EO as (co & -> & FO & -> & NC).
  destruct r as [|l3 r].
  { rewrite app_nil_r. eapply kc_end; eauto. }
  destruct (full_match context_hunk_header3 l3) as [c3|] eqn:E3; cbn [bind] in H.
  2: { eapply kc_dropped; eauto. intros b. now apply no_new_range. }
  pose proof (match_new_range _ _ E3) as S3. destruct (take_context_lines r) as [new rest'] eqn:EN. apply cline_split in EN as (cn & -> & FN & -> & NC').
  destruct (context_body_loop _ _ _ _ _) as [ds|w|] eqn:EL; cbn [bind] in H; try discriminate.
  - rewrite add_parsed_hunk_ok in H. cbn [bind] in H. eapply kc_later; eauto.
  - eapply kc_here; eauto. eapply paired_cases; eauto.
Qed.
Lemma chunks_sound ls : chunks_crash ls -> forall fuel m r, context_hunks fuel ls m <> Ok r.
Proof.
  induction 1 as [l f l2 a old S R F|l f l2 a old l3 b new ls S R F R3 FN NC X|l f l2 a old l3 ls S R F NC N3 X IH|l f l2 a old l3 b new ls S R F R3 FN NC X IH];
    intros [|fuel] m r H; try discriminate; cbn [context_hunks] in H; unfold context_hunk_header_at in H;
    apply star_match in S as (c1 & M1 & _); rewrite M1 in H; apply old_range_match in R as (c2 & M2 & _); rewrite M2 in H; unfold context_hunk_body in H.
  - rewrite <- (app_nil_r (map cline_text old)) in H. rewrite clines_take in H; [|exact F|intros ? ? _ Y; discriminate Y]. discriminate.
  - rewrite clines_take in H; [|exact F|eapply new_range_no_cline; eauto]. apply new_range_match in R3 as (c3 & M3 & _). rewrite M3 in H.
    rewrite clines_take in H by assumption. destruct (context_body_loop _ _ _ _ _) as [ds|w|] eqn:EL; cbn [bind] in H; try discriminate. exact (paired_sound _ _ X F FN _ _ _ _ EL).
  - rewrite clines_take in H by assumption. destruct (full_match context_hunk_header3 l3) as [c3|] eqn:E3; [destruct (N3 _ (match_new_range _ _ E3))|].
    cbn [bind] in H. eapply IH; exact H.
  - rewrite clines_take in H; [|exact F|eapply new_range_no_cline; eauto]. apply new_range_match in R3 as (c3 & M3 & _). rewrite M3 in H.
    rewrite clines_take in H by assumption. destruct (context_body_loop _ _ _ _ _) as [ds|w|] eqn:EL; cbn [bind] in H; try discriminate.
    rewrite add_parsed_hunk_ok in H. cbn [bind] in H. eapply IH; exact H.
Qed.
