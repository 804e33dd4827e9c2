(** Reading printed context hunks back. *)
From Coq Require Import String Sorted Permutation.
From Verif Require Import Base QtStr Lev Diff Regex Patterns Parser SpecEdit SpecInline SpecPatch SpecRegex SpecParse SpecText SpecUnified SpecNormal SpecContext
  PRegex PRegexLang PLev PHistory PEditLines PParse PUnified PHeaders PFileHeads PUnifiedDoc PFuel PAnyInput PDefined PropsParse PropsText PUnifiedPrint PUnifiedRead PNormal.
Local Open Scope Z_scope.

Definition not_begin (m : string) (ls : list str) : Prop := forall l x, ls = l :: x -> ~ begins m l.
Lemma starts_begin mark r ls : not_begin mark ls -> starts_matching (T mark ~~ r) ls = false.
Proof.
  intros N. destruct ls as [|l x]; [reflexivity|]. cbn [starts_matching]. unfold has_match. rewrite line_no; [reflexivity|]. eapply N; reflexivity.
Qed.
Lemma starts_marked mark ts rest : Forall line_text ts -> ts <> [] ->
  starts_matching (T mark ~~ RGroup 1 (star any) ~~ nl) (marked mark ts ++ rest) = true.
Proof.
  intros [|t ts' [N _] F] NE; [congruence|]. cbn [marked map app starts_matching]. unfold has_match.
  destruct (line_forward mark t N) as (c & -> & _). reflexivity.
Qed.
Lemma take_marked mark ts rest : Forall line_text ts -> not_begin mark rest ->
  take_matching (T mark ~~ RGroup 1 (star any) ~~ nl) (marked mark ts ++ rest) = (ts, rest).
Proof. intros F N. apply take_forward; [|exact N]. eapply Forall_impl; [|exact F]. intros t [H _]. exact H. Qed.
Lemma not_begin_marked mark mark' ts rest : length (lit mark) = length (lit mark') -> mark <> mark' -> (ts = [] -> not_begin mark rest) ->
  lit mark <> lit mark' ->
  not_begin mark (marked mark' ts ++ rest).
Proof.
  intros L _ N D. destruct ts as [|t ts]; [exact (N eq_refl)|]. intros l x E [y Y]. cbn in E. injection E as <- _.
  apply D. clear - L Y. assert (firstn (length (lit mark)) (lit mark ++ y) = firstn (length (lit mark)) (lit mark' ++ t ++ [NL])) by now rewrite Y.
  rewrite firstn_app, firstn_all, Nat.sub_diag, firstn_O, app_nil_r in H. rewrite L in H.
  rewrite firstn_app, firstn_all, Nat.sub_diag, firstn_O, app_nil_r in H. exact H.
Qed.
Lemma end_marked mark ts rest : Forall line_text ts -> mark = "  "%string -> (ts = [] -> end_or_context rest = true) -> end_or_context (marked mark ts ++ rest) = true.
Proof.
  intros F -> N. destruct F as [|t ts [H _] F]; [auto|]. cbn [marked map app end_or_context]. unfold has_match, context_context.
  destruct (line_forward "  " t H) as (c & -> & _). reflexivity.
Qed.
Lemma end_not mark ts rest : ts <> [] -> length (lit mark) = 2%nat -> lit mark <> lit "  " -> end_or_context (marked mark ts ++ rest) = false.
Proof.
  intros NE L D. destruct ts as [|t ts]; [congruence|]. cbn [marked map app end_or_context]. unfold has_match, context_context.
  rewrite line_no; [reflexivity|]. intros [y Y]. apply D.
  assert (firstn 2 (lit mark ++ t ++ [NL]) = firstn 2 (lit "  " ++ y)) as H by now rewrite Y.
  rewrite firstn_app, <- L, firstn_all, Nat.sub_diag, firstn_O, app_nil_r, L in H. exact H.
Qed.
Lemma context_text_of t : ~ In NL t -> context_text (lit "  " ++ t ++ [NL]) = t.
Proof. intros N. unfold context_text, context_context. destruct (line_forward "  " t N) as (c & -> & ->). reflexivity. Qed.

(** The sides of the rest of a hunk: [o], [n] tell if the side is printed. *)
Definition side_of (b : bool) (f : seg -> list str) (ss : list seg) : list str := if b then concat (map f ss) else [].
Definition shows (o n : bool) (ss : list seg) : Prop :=
  (o || n = true)%bool /\ Forall (fun s => (removes s = true -> o = true) /\ (adds s = true -> n = true)) ss.
Definition stuck (old new : list str) : Prop :=
  (old = [] /\ new = []) \/ (end_or_context old && end_or_context new)%bool = false.
Lemma take_both_forward ts : forall fuel o n old new, (length ts <= fuel)%nat -> Forall line_text ts -> (o || n = true)%bool -> stuck old new ->
  (o = false -> old = []) -> (n = false -> new = []) ->
  take_both fuel ((if o then marked "  " ts else []) ++ old) ((if n then marked "  " ts else []) ++ new) = (ts, old, new).
Proof.
  induction ts as [|t ts IH]; intros fuel o n old new L F ON ST HO HN.
  - assert (forall (b : bool) (l : list str), (if b then marked "  " [] else []) ++ l = l) as E by (intros []; reflexivity). rewrite !E.
    destruct fuel as [|fuel]; [reflexivity|]. cbn [take_both]. destruct ST as [[-> ->]|ST]; [reflexivity|]. rewrite ST. reflexivity.
  - destruct fuel as [|fuel]; [cbn in L; lia|]. inversion_clear F as [|? ? [N S] F']. cbn [take_both].
    assert (EO : end_or_context ((if o then marked "  " (t :: ts) else []) ++ old) = true).
    { destruct o; [apply end_marked; [constructor; [split|]; assumption|reflexivity|discriminate]|]. rewrite HO by reflexivity. reflexivity. }
    assert (EN : end_or_context ((if n then marked "  " (t :: ts) else []) ++ new) = true).
    { destruct n; [apply end_marked; [constructor; [split|]; assumption|reflexivity|discriminate]|]. rewrite HN by reflexivity. reflexivity. }
    rewrite EO, EN.
    specialize (IH fuel o n old new ltac:(cbn in L; lia) F' ON ST HO HN).
    destruct o, n; try discriminate; cbn [andb negb marked map app tl].
    + rewrite (context_text_of t N). cbn [app] in IH. unfold marked in IH. rewrite IH. reflexivity.
    + rewrite HN in * by reflexivity. cbn [andb negb marked map app tl] in *. rewrite (context_text_of t N). unfold marked in IH. rewrite IH. reflexivity.
    + rewrite HO in * by reflexivity. cbn [andb negb marked map app tl] in *. rewrite (context_text_of t N). unfold marked in IH. rewrite IH. reflexivity.
Qed.
Lemma inline_ok sl dl a b ty : Forall line_text sl -> Forall line_text dl ->
  exists d, determine_inline (with_texts sl dl (new_diff a b ty)) = Ok d /\ d_type d = ty /\
    lines_of (d_slines d) = sl /\ lines_of (d_dlines d) = dl.
Proof.
  intros F1 F2. assert (K : forall l, Forall line_text l -> Forall short l) by (intros l; apply Forall_impl; intros x [_ H]; unfold short, count in *; lia).
  pose proof (texts_defined sl dl a b ty (K _ F1) (K _ F2)) as D. pose proof (determine_inline_fuel (with_texts sl dl (new_diff a b ty))) as FU.
  destruct (determine_inline _) as [d| |] eqn:E; [|exfalso; apply D; exact I|congruence].
  exists d. apply inline_texts in E. tauto.
Qed.
Lemma side_cons b f s ss : side_of b f (s :: ss) = (if b then f s else []) ++ side_of b f ss.
Proof. destruct b; reflexivity. Qed.
(** After a change come common lines or nothing. *)
Lemma after_change b f ss mark : (f = old_side \/ f = new_side) -> Forall cseg_ok ss -> (forall s ss', ss = s :: ss' -> exists ls, s = Ctx ls) ->
  length (lit mark) = 2%nat -> lit mark <> lit "  " -> not_begin mark (side_of b f ss).
Proof.
  intros HF OK H L D. destruct b; [|intros l x E; discriminate]. destruct ss as [|s ss]; [intros l x E; discriminate|].
  destruct (H s ss eq_refl) as [ls ->]. inversion_clear OK as [|? ? (_ & _ & NE) _]. cbn [src_lines dst_lines] in NE.
  cbn [side_of map concat]. assert (f (Ctx ls) = marked "  " ls) as -> by (destruct HF as [-> | ->]; reflexivity).
  apply not_begin_marked; [now rewrite L|intros ->; now apply D| |exact D]. intros ->. tauto.
Qed.
Lemma sorted_next s ss : Sorted alternate (s :: ss) -> forall s' ss', ss = s' :: ss' -> alternate s s'.
Proof. intros H s' ss' ->. apply Sorted_inv in H as [_ H]. now inversion H. Qed.
Lemma with_app (ts : list str) mark : ts <> [] -> marked mark ts <> [].
Proof. destruct ts; [congruence|discriminate]. Qed.
Lemma loop_open {A} (old new : list str) (x y : A) : old <> [] \/ new <> [] -> match old, new with [], [] => x | _, _ => y end = y.
Proof. destruct old, new; intros [H|H]; congruence. Qed.
Lemma context_loop_forward ss : forall fuel a b o n, (length ss < fuel)%nat -> Forall cseg_ok ss -> Sorted alternate ss -> shows o n ss ->
  exists ds, context_body_loop fuel a b (side_of o old_side ss) (side_of n new_side ss) = Ok ds /\ Forall2 seg_is ss ds.
Proof.
  induction ss as [|s ss IH]; intros fuel a b o n L OK SO SH; (destruct fuel as [|fuel]; [cbn in L; lia|]).
  - exists []. split; [|constructor]. destruct o, n; reflexivity.
  - inversion_clear OK as [|? ? OKs OK']. pose proof (sorted_next _ _ SO) as NX. apply Sorted_inv in SO as [SO' _].
    destruct SH as [ON SH]. inversion_clear SH as [|? ? [S1 S2] SH'].
    destruct OKs as (T1 & T2 & NE).
    assert (SHr : shows o n ss) by (split; assumption).
    rewrite !side_cons. cbn [context_body_loop].
    destruct s as [ls|r d]; cbn [src_lines dst_lines] in *.
    + (* common lines *)
      assert (NL' : ls <> []) by tauto. cbn [old_side new_side].
      rewrite loop_open by (destruct o, n; try discriminate; [left|left|right]; destruct ls; try congruence; discriminate).
      unfold context_removed, context_added.
      assert (ST : stuck (side_of o old_side ss) (side_of n new_side ss)).
      { destruct ss as [|[ls'|r' d'] ss].
        - left. destruct o, n; auto.
        - destruct (NX _ _ eq_refl).
        - right. inversion_clear SH' as [|? ? [R1 R2] _]. inversion_clear OK' as [|? ? (_ & _ & NN) _]. cbn [src_lines dst_lines] in NN.
          rewrite !side_cons. destruct r' as [|x' r'].
          + destruct d' as [|y' d']; [tauto|]. rewrite (R2 eq_refl). cbn [new_side]. rewrite (end_not "+ "); [apply andb_false_r|discriminate|reflexivity|discriminate].
          + rewrite (R1 eq_refl). destruct d' as [|y' d']; cbn [old_side]; rewrite end_not; try reflexivity; discriminate. }
      assert (B1 : forall m b (rest : list str), length (lit m) = 2%nat -> lit m <> lit "  " -> (b = false -> rest = []) -> not_begin m ((if b then marked "  " ls else []) ++ rest)).
      { intros m [|] rest E D K; [|rewrite K by reflexivity; intros ? ? E'; discriminate].
        apply not_begin_marked; [rewrite E; reflexivity|intros ->; now apply D|intros ->; congruence|exact D]. }
      rewrite !starts_begin by (apply B1; [reflexivity|discriminate|destruct o, n; discriminate || reflexivity]).
      assert (EC : forall b (rest : list str), (b = false -> rest = []) -> end_or_context ((if b then marked "  " ls else []) ++ rest) = true).
      { intros [|] rest K; [|rewrite K by reflexivity; reflexivity]. apply end_marked; [exact T1|reflexivity|congruence]. }
      rewrite !EC by (destruct o, n; discriminate || reflexivity). cbn [andb].
      rewrite take_both_forward; try assumption; try (intros ->; reflexivity).
      2:{ rewrite !app_length. destruct o, n; try discriminate; unfold marked; rewrite ?app_nil_l, map_length; unfold str, chr in *; cbn [length app]; lia. }
      destruct (inline_ok ls ls a b Unchanged T1 T1) as (d & -> & DT & D1 & D2). cbn [bind].
      destruct (IH fuel (a + Z.of_nat (length ls)) (b + Z.of_nat (length ls)) o n) as (ds & -> & F); auto; [cbn in L; lia|].
      exists (d :: ds). split; [reflexivity|]. constructor; [|exact F]. repeat split; assumption.
    + assert (HN : forall s ss', ss = s :: ss' -> exists ls, s = Ctx ls).
      { intros s ss' E. specialize (NX _ _ E). destruct s; [eauto|destruct NX]. }
      assert (AC1 : forall mark, length (lit mark) = 2%nat -> lit mark <> lit "  " -> not_begin mark (side_of o old_side ss)).
      { intros. apply after_change; auto. }
      assert (AC2 : forall mark, length (lit mark) = 2%nat -> lit mark <> lit "  " -> not_begin mark (side_of n new_side ss)).
      { intros. apply after_change; auto. }
      destruct r as [|x0 r]; [destruct d as [|y0 d]; [tauto|]|destruct d as [|y0 d]].
      * (* insertion *)
        rewrite (S2 eq_refl) in *. cbn [old_side new_side].
        assert ((if o then marked "! " (@nil str) else []) = []) as -> by (destruct o; reflexivity). rewrite app_nil_l.
        rewrite loop_open by (right; discriminate). unfold context_removed, context_added.
        rewrite starts_begin by (apply AC1; [reflexivity|discriminate]).
        rewrite starts_marked by (try exact T2; discriminate).
        rewrite take_marked; [|exact T2|apply AC2; [reflexivity|discriminate]].
        destruct (inline_ok [] (y0 :: d) a b Insert T1 T2) as (d0 & -> & DT & D1 & D2). cbn [bind].
        destruct (IH fuel a (b + Z.of_nat (length (y0 :: d))) o true) as (ds & -> & F); auto; [cbn in L; lia|].
        exists (d0 :: ds). split; [reflexivity|]. constructor; [|exact F]. repeat split; assumption.
      * rewrite (S1 eq_refl) in *. cbn [old_side new_side].
        assert ((if n then marked "! " (@nil str) else []) = []) as -> by (destruct n; reflexivity). rewrite app_nil_l.
        rewrite loop_open by (left; discriminate). unfold context_removed, context_added.
        rewrite starts_marked by (try exact T1; discriminate).
        rewrite take_marked; [|exact T1|apply AC1; [reflexivity|discriminate]].
        destruct (inline_ok (x0 :: r) [] a b Delete T1 T2) as (d0 & -> & DT & D1 & D2). cbn [bind].
        destruct (IH fuel (a + Z.of_nat (length (x0 :: r))) b true n) as (ds & -> & F); auto; [cbn in L; lia|].
        exists (d0 :: ds). split; [reflexivity|]. constructor; [|exact F]. repeat split; assumption.
      * rewrite (S1 eq_refl), (S2 eq_refl) in *. cbn [old_side new_side].
        rewrite loop_open by (left; discriminate). unfold context_removed, context_added, context_changed.
        rewrite !starts_begin by (apply not_begin_marked; try discriminate; reflexivity).
        rewrite end_not by (try reflexivity; discriminate). cbn [andb].
        rewrite starts_marked by (try exact T1; discriminate). cbn [orb].
        rewrite take_marked; [|exact T1|apply AC1; [reflexivity|discriminate]].
        rewrite take_marked; [|exact T2|apply AC2; [reflexivity|discriminate]].
        destruct (inline_ok (x0 :: r) (y0 :: d) a b Change T1 T2) as (d0 & -> & DT & D1 & D2). cbn [bind].
        destruct (IH fuel (a + Z.of_nat (length (x0 :: r))) (b + Z.of_nat (length (y0 :: d))) true true) as (ds & -> & F); auto; [cbn in L; lia|].
        exists (d0 :: ds). split; [reflexivity|]. constructor; [|exact F]. repeat split; assumption.
Qed.
