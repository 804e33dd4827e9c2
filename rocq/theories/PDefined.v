(** When parsing has defined behaviour. *)
From Coq Require Import String Permutation.
From Verif Require Import Base QtStr Lev Diff Regex Patterns Parser SpecEdit SpecInline SpecPatch SpecParse
  PRegex PLev PHistory PEditLines PParse PUnified PHeaders PFileHeads PUnifiedDoc PFuel PAnyInput.
Local Open Scope Z_scope.

Definition is_ub {A} (r : res A) : Prop := match r with UB _ => True | _ => False end.
Lemma bind_def {A B} (x : res A) (f : A -> res B) : ~ is_ub x -> (forall a, x = Ok a -> ~ is_ub (f a)) -> ~ is_ub (bind x f).
Proof. destruct x; cbn; auto. Qed.
Definition suffix {A} (a b : list A) : Prop := exists pre, b = pre ++ a.
Lemma suffix_refl {A} (a : list A) : suffix a a. Proof. exists []; reflexivity. Qed.
Lemma suffix_cons {A} (x : A) a : suffix a (x :: a). Proof. exists [x]; reflexivity. Qed.
Lemma suffix_trans {A} (a b c : list A) : suffix a b -> suffix b c -> suffix a c.
Proof. intros [p ->] [q ->]. exists (q ++ p). now rewrite app_assoc. Qed.
Lemma safe_suffix a b : suffix a b -> safe b -> safe a.
Proof.
  intros [p ->] [H1 H2 H3]. split.
  - apply Forall_app in H1. apply H1.
  - intros pre x ->. apply (H2 (p ++ pre) x). now rewrite app_assoc.
  - intros pre x post ->. apply (H3 (p ++ pre) x post). now rewrite app_assoc.
Qed.
Definition short (l : str) : Prop := (N.of_nat (length l) < 65535)%N.

Lemma inline_defined sl dl d : d_slines d = map new_ds sl -> d_dlines d = map new_ds dl ->
  Forall short sl -> Forall short dl -> ~ is_ub (determine_inline d).
Proof.
  intros E1 E2 F1 F2.
  destruct (determine_inline_ok d) as (s' & d' & -> & _); [| | |auto].
  - intros s H. rewrite E1 in H. apply in_map_iff in H as (x & <- & _). reflexivity.
  - intros s H. rewrite E2 in H. apply in_map_iff in H as (x & <- & _). reflexivity.
  - intros i s e H1 H2. rewrite E1 in H1. rewrite E2 in H2.
    apply nth_error_In, in_map_iff in H1 as (x & <- & I1). apply nth_error_In, in_map_iff in H2 as (y & <- & I2).
    rewrite Forall_forall in F1, F2. apply F1 in I1. apply F2 in I2. unfold short in *.
    unfold no_wrap, area. cbn [ds_string new_ds].
    apply N.le_lt_trans with (65535 * 65535)%N; [|reflexivity]. apply N.mul_le_mono; lia.
Qed.
Lemma take_matching_suffix r ls : forall ts rest, take_matching r ls = (ts, rest) -> suffix rest ls.
Proof.
  induction ls as [|l ls IH]; intros ts rest; cbn [take_matching].
  - intros H; injection H as <- <-. apply suffix_refl.
  - destruct (full_match r l).
    + destruct (take_matching r ls) as [t rs]. intros H; injection H as <- <-.
      eapply suffix_trans; [eapply IH; reflexivity|apply suffix_cons].
    + intros H; injection H as <- <-. apply suffix_refl.
Qed.

Lemma unified_body_defined fuel : forall c,
  Forall (fun l => l <> [] /\ short l) (uc_rest c) -> ~ is_ub (unified_body_loop fuel c).
Proof.
  assert (SH : forall x ts, Forall (fun l => l <> [] /\ short l) (map (cons x) ts) -> Forall short ts).
  { intros x ts H. apply Forall_map in H. eapply Forall_impl; [|exact H]. intros l [_ L]. unfold short in *. cbn in L. lia. }
  induction fuel as [|fuel IH]; intros c F; [auto|]. cbn [unified_body_loop].
  destruct (uc_rest c) as [|l ls] eqn:ER; [auto|].
  apply bind_def. { unfold matches_unified_hunk_line. destruct l; [inversion F as [|? ? [N _]]; congruence|auto]. }
  intros isl EM. destruct (isl && counting (uc_ca c) (uc_cb c))%bool eqn:EC; [|auto].
  destruct (starts_with [SP] l) eqn:ES.
  - destruct (take_context _ _ _ _ _ _) as [d' c'] eqn:ET.
    apply take_context_ok in ET as (ts & E1 & -> & _).
    apply bind_def; [apply IH; rewrite E1 in F; apply Forall_app in F; apply F|]. intros [x y] _; auto.
  - destruct (take_removed _ _ _ _ _ _) as [d1 c1] eqn:ET1.
    apply take_removed_ok in ET1 as (sl & E1 & -> & _).
    destruct (take_added _ _ _ _ _ _) as [d2 c2] eqn:ET2.
    apply take_added_ok in ET2 as (dl & E2 & -> & _).
    rewrite E1 in F. apply Forall_app in F as [F1 F]. rewrite E2 in F. apply Forall_app in F as [F2 F].
    apply bind_def.
    + eapply (inline_defined sl dl); eauto; rewrite more_more; cbn [app]; rewrite app_nil_r;
        destruct (Nat.eqb _ _); [|destruct (Nat.eqb _ _)| |destruct (Nat.eqb _ _)]; reflexivity.
    + intros d _. apply bind_def; [apply IH; exact F|]. intros [x y] _; auto.
Qed.
Lemma unified_hunk_body_defined c ls m : Forall (fun l => l <> [] /\ short l) ls ->
  ~ is_ub (unified_hunk_body c ls m) /\ (forall m' ls', unified_hunk_body c ls m = Ok (m', ls') -> suffix ls' ls).
Proof.
  intros F. unfold unified_hunk_body.
  destruct (hunk_side _ _) as [[a ca]|]; [|split; [auto|intros m' ls' H; injection H as <- <-; apply suffix_refl]].
  destruct (hunk_side _ _) as [[b cb]|]; [|split; [auto|intros m' ls' H; injection H as <- <-; apply suffix_refl]].
  split.
  - apply bind_def; [now apply unified_body_defined|]. intros [ds r] _. rewrite add_parsed_hunk_ok. auto.
  - intros m' ls' E. destruct (unified_body_loop _ _) as [[ds rest]| |] eqn:EL; try discriminate. cbn [bind] in E.
    rewrite add_parsed_hunk_ok in E. injection E as <- <-.
    apply unified_body_ok in EL as (R & _). cbn [uc_rest] in R. exists (concat (map printed ds)). exact R.
Qed.
Lemma safe_lines ls : safe ls -> Forall (fun l => l <> [] /\ short l) ls.
Proof. apply sf_lines. Qed.
Lemma safe_tail l ls : safe (l :: ls) -> safe ls.
Proof. apply safe_suffix, suffix_cons. Qed.
Lemma unified_hunks_defined fuel : forall ls m, safe ls ->
  ~ is_ub (unified_hunks fuel ls m) /\ (forall m' ls', unified_hunks fuel ls m = Ok (m', ls') -> suffix ls' ls).
Proof.
  induction fuel as [|fuel IH]; intros ls m S; [split; [auto|discriminate]|]. cbn [unified_hunks].
  unfold unified_hunk_header_at. destruct ls as [|l ls]; [split; [auto|intros m' ls' H; injection H as <- <-; apply suffix_refl]|].
  destruct (full_match unified_hunk_header l) as [c|]; [|split; [auto|intros m' ls' H; injection H as <- <-; apply suffix_refl]].
  pose proof (safe_tail _ _ S) as S'.
  destruct (unified_hunk_body_defined c ls m (safe_lines _ S')) as [D SF].
  destruct (unified_hunk_body c ls m) as [[m1 ls1]| |] eqn:E; cbn [bind]; [|split; [auto|discriminate]|split; [auto|discriminate]].
  specialize (SF _ _ eq_refl). destruct (IH ls1 m1 (safe_suffix _ _ SF S')) as [D2 SF2]. split; [exact D2|].
  intros m' ls' H. apply SF2 in H. eapply suffix_trans; [exact H|]. eapply suffix_trans; [exact SF|apply suffix_cons].
Qed.

(** * Context *)
Lemma context_line_like l : has_match context_line l = true -> body_like l.
Proof.
  unfold has_match. destruct (full_match context_line l) as [c|] eqn:E; [|discriminate]. intros _.
  unfold full_match, context_line in E. rewrite m_seq in E. unfold one_of in E.
  apply i_chr in E as (x & s & -> & P & E). inv_match E. exists x, x0. split; [reflexivity|].
  apply existsb_exists in P as (y & I & E2). apply N.eqb_eq in E2 as ->. exact I.
Qed.
Lemma take_context_lines_like ls : forall ts rest, take_context_lines ls = (ts, rest) -> Forall body_like ts.
Proof.
  induction ls as [|l ls IH]; intros ts rest; cbn [take_context_lines].
  - intros H; injection H as <- <-. constructor.
  - destruct (has_match context_line l) eqn:E.
    + destruct (take_context_lines ls) as [t r]. intros H; injection H as <- <-. constructor; [now apply context_line_like|eapply IH; reflexivity].
    + intros H; injection H as <- <-. constructor.
Qed.
(** The text of a matched line is shorter. *)
Lemma captured_short l : short l -> forall mark c, full_match (T mark ~~ RGroup 1 (star any) ~~ nl) l = Some c -> short (captured 1 c).
Proof.
  intros S mark c E. unfold full_match in E. inv_match E. inv_match E. inv_match E. apply end_inv in E as [-> ->].
  cbn. unfold short in *. rewrite !app_length in S. cbn in S. unfold str, chr in *. lia.
Qed.
Lemma take_matching_short mark ls : Forall short ls ->
  forall ts rest, take_matching (T mark ~~ RGroup 1 (star any) ~~ nl) ls = (ts, rest) -> Forall short ts /\ Forall short rest.
Proof.
  induction 1 as [|l ls S F IH]; intros ts rest; cbn [take_matching].
  - intros H; injection H as <- <-. auto.
  - destruct (full_match _ l) as [c|] eqn:E.
    + destruct (take_matching _ ls) as [t r] eqn:ET. intros H; injection H as <- <-.
      destruct (IH _ _ eq_refl) as [A B]. split; [constructor; [eapply captured_short; eauto|exact A]|exact B].
    + intros H; injection H as <- <-. auto.
Qed.
Lemma context_text_short l : short l -> short (context_text l).
Proof.
  intros S. unfold context_text. destruct (full_match context_context l) as [c|] eqn:E.
  - eapply captured_short; eauto.
  - unfold short. cbn. lia.
Qed.
Lemma take_both_short fuel : forall old new, Forall short old -> Forall short new ->
  forall ts o n, take_both fuel old new = (ts, o, n) -> Forall short ts /\ Forall short o /\ Forall short n.
Proof.
  induction fuel as [|fuel IH]; intros old new F1 F2 ts o n; cbn [take_both].
  - intros H; injection H as <- <- <-. auto.
  - destruct (_ && _)%bool; [|intros H; injection H as <- <- <-; auto].
    destruct (take_both fuel (tl old) (tl new)) as [[t o'] n'] eqn:ET. intros H; injection H as <- <- <-.
    apply IH in ET as (A & B & C); [|destruct F1; cbn; auto|destruct F2; cbn; auto].
    split; [|auto]. constructor; [|exact A].
    destruct F2 as [|x new S F2]; [destruct F1 as [|x old S F1]; [unfold short; cbn; lia|]|]; now apply context_text_short.
Qed.
Lemma texts_defined sl dl a b ty : Forall short sl -> Forall short dl -> ~ is_ub (determine_inline (with_texts sl dl (new_diff a b ty))).
Proof. apply inline_defined; reflexivity. Qed.
Lemma context_body_defined fuel : forall a b old new, Forall short old -> Forall short new ->
  ~ is_ub (context_body_loop fuel a b old new).
Proof.
  induction fuel as [|fuel IH]; intros a b old new F1 F2; [auto|]. cbn [context_body_loop].
  assert (G : ~ is_ub (if starts_matching context_removed old then
            let '(ts, old) := take_matching context_removed old in
            do d <- determine_inline (with_texts ts [] (new_diff a b Delete));
            do ds <- context_body_loop fuel (a + Z.of_nat (length ts)) b old new;
            Ok (d :: ds)
          else if starts_matching context_added new then
            let '(ts, new) := take_matching context_added new in
            do d <- determine_inline (with_texts [] ts (new_diff a b Insert));
            do ds <- context_body_loop fuel a (b + Z.of_nat (length ts)) old new;
            Ok (d :: ds)
          else if (end_or_context old && end_or_context new)%bool then
            let '(ts, old, new) := take_both (length old + length new) old new in
            do d <- determine_inline (with_texts ts ts (new_diff a b Unchanged));
            do ds <- context_body_loop fuel (a + Z.of_nat (length ts)) (b + Z.of_nat (length ts)) old new;
            Ok (d :: ds)
          else if (starts_matching context_changed old || starts_matching context_changed new)%bool then
            let '(ts1, old) := take_matching context_changed old in
            let '(ts2, new) := take_matching context_changed new in
            do d <- determine_inline (with_texts ts1 ts2 (new_diff a b Change));
            do ds <- context_body_loop fuel (a + Z.of_nat (length ts1)) (b + Z.of_nat (length ts2)) old new;
            Ok (d :: ds)
          else Ok [])).
  { destruct (starts_matching context_removed old).
    { destruct (take_matching context_removed old) as [ts o] eqn:ET. apply take_matching_short in ET as [A B]; [|exact F1].
      apply bind_def; [apply texts_defined; auto|intros d _]. apply bind_def; [apply IH; auto|auto]. }
    destruct (starts_matching context_added new).
    { destruct (take_matching context_added new) as [ts o] eqn:ET. apply take_matching_short in ET as [A B]; [|exact F2].
      apply bind_def; [apply texts_defined; auto|intros d _]. apply bind_def; [apply IH; auto|auto]. }
    destruct (_ && _)%bool.
    { destruct (take_both _ old new) as [[ts o] n] eqn:ET. apply take_both_short in ET as (A & B & C); [|exact F1|exact F2].
      apply bind_def; [apply texts_defined; auto|intros d _]. apply bind_def; [apply IH; auto|auto]. }
    destruct (_ || _)%bool; [|auto].
    destruct (take_matching context_changed old) as [ts1 o] eqn:ET1. destruct (take_matching context_changed new) as [ts2 n] eqn:ET2.
    apply take_matching_short in ET1 as [A1 B1]; [|exact F1]. apply take_matching_short in ET2 as [A2 B2]; [|exact F2].
    apply bind_def; [apply texts_defined; auto|intros d _]. apply bind_def; [apply IH; auto|auto]. }
  destruct old; [destruct new|]; auto.
Qed.
Lemma context_hunk_body_defined c1 c2 ls m : safe ls -> (exists l, In l ls /\ ~ body_like l) ->
  ~ is_ub (context_hunk_body c1 c2 ls m) /\ (forall m' ls', context_hunk_body c1 c2 ls m = Ok (m', ls') -> suffix ls' ls).
Proof.
  intros S (l0 & I0 & N0). unfold context_hunk_body. destruct (take_context_lines ls) as [old r] eqn:E1.
  pose proof (take_context_lines_like _ _ _ E1) as BL. apply take_context_lines_ok in E1 as ->.
  destruct r as [|l r].
  { exfalso. rewrite app_nil_r in I0. rewrite Forall_forall in BL. auto. }
  pose proof (sf_lines _ S) as F. apply Forall_app in F as [F1 F]. inversion F as [|? ? _ F2]. subst.
  assert (SH : forall k, Forall (fun l => l <> [] /\ (N.of_nat (length l) < 65535)%N) k -> Forall short k).
  { intros k K. eapply Forall_impl; [|exact K]. cbn. tauto. }
  destruct (full_match context_hunk_header3 l) as [c3|].
  2: { split; [auto|]. intros m' ls' H; injection H as <- <-. exists old. reflexivity. }
  destruct (take_context_lines r) as [new rest] eqn:E2. apply take_context_lines_ok in E2 as ->.
  apply Forall_app in F2 as [F2 _].
  split.
  - apply bind_def; [apply context_body_defined; auto|]. intros ds _. rewrite add_parsed_hunk_ok. auto.
  - intros m' ls'. destruct (context_body_loop _ _ _ _ _); try discriminate. cbn [bind].
    rewrite add_parsed_hunk_ok. cbn [bind]. intros H; injection H as <- <-. exists (old ++ l :: new).
    now rewrite <- app_assoc.
Qed.
Lemma context_hunks_defined fuel : forall ls m, safe ls ->
  ~ is_ub (context_hunks fuel ls m) /\ (forall m' ls', context_hunks fuel ls m = Ok (m', ls') -> suffix ls' ls).
Proof.
  induction fuel as [|fuel IH]; intros ls m S; [split; [auto|discriminate]|]. cbn [context_hunks]. unfold context_hunk_header_at.
  destruct ls as [|l ls]; [split; [auto|intros m' ls' H; injection H as <- <-; apply suffix_refl]|].
  destruct (full_match context_hunk_header1 l) as [c1|]; [|split; [auto|intros m' ls' H; injection H as <- <-; apply suffix_refl]].
  destruct ls as [|l2 ls]; [split; [auto|intros m' ls' H; injection H as <- <-; apply suffix_cons]|].
  destruct (full_match context_hunk_header2 l2) as [c2|] eqn:E2; [|split; [auto|intros m' ls' H; injection H as <- <-; apply suffix_cons]].
  assert (S2 : safe ls) by (eapply safe_suffix; [|exact S]; exists [l; l2]; reflexivity).
  assert (X : exists l, In l ls /\ ~ body_like l).
  { unfold full_match, context_hunk_header2 in E2. inv_match E2. apply (sf_context _ S [l] x ls). reflexivity. }
  destruct (context_hunk_body_defined c1 c2 ls m S2 X) as [D SF].
  destruct (context_hunk_body c1 c2 ls m) as [[m1 ls1]| |] eqn:E; cbn [bind]; [|split; [auto|discriminate]|split; [auto|discriminate]].
  specialize (SF _ _ eq_refl). destruct (IH ls1 m1 (safe_suffix _ _ SF S2)) as [D2 SF2]. split; [exact D2|].
  intros m' ls' H. apply SF2 in H. eapply suffix_trans; [exact H|]. eapply suffix_trans; [exact SF|].
  exists [l; l2]. reflexivity.
Qed.

(** * Normal *)
Lemma normal_hunk_body_defined ty a b ls m : ~ is_ub (normal_hunk_body ty a b ls m) /\
  (forall m' ls', normal_hunk_body ty a b ls m = Ok (m', ls') -> suffix ls' ls).
Proof.
  unfold normal_hunk_body.
  destruct (match ty with Change | Delete => take_matching normal_removed ls | _ => ([], ls) end) as [sl ls1] eqn:E1.
  assert (L1 : suffix ls1 ls).
  { destruct ty; try (injection E1 as <- <-; apply suffix_refl); eapply take_matching_suffix; eauto. }
  clear E1.
  destruct (match ty with Change => match ls1 with l :: ls' => if has_match normal_divider l then Some ls' else None | [] => None end | _ => Some ls1 end) as [ls2|] eqn:E2.
  - assert (L2 : suffix ls2 ls1).
    { destruct ty; try (injection E2 as <-; apply suffix_refl). destruct ls1; [discriminate|]. destruct (has_match _ _); [|discriminate].
      injection E2 as <-. apply suffix_cons. }
    destruct (match ty with Change | Insert => take_matching normal_added ls2 | _ => ([], ls2) end) as [dl ls3] eqn:E3.
    assert (L3 : suffix ls3 ls2).
    { destruct ty; try (injection E3 as <- <-; apply suffix_refl); eapply take_matching_suffix; eauto. }
    rewrite add_parsed_hunk_ok. cbn [bind]. split; [auto|]. intros m' ls' H; injection H as <- <-.
    eauto using suffix_trans.
  - rewrite add_parsed_hunk_ok. cbn [bind]. split; [auto|]. intros m' ls' H; injection H as <- <-. exact L1.
Qed.
Lemma normal_hunks_defined fuel : forall ls m,
  ~ is_ub (normal_hunks fuel ls m) /\ (forall m' ls', normal_hunks fuel ls m = Ok (m', ls') -> suffix ls' ls).
Proof.
  induction fuel as [|fuel IH]; intros ls m; [split; [auto|discriminate]|]. cbn [normal_hunks].
  destruct (normal_hunk_header_at ls) as [[[[ty a] b] ls1]|] eqn:E; [|split; [auto|intros m' ls' H; injection H as <- <-; apply suffix_refl]].
  assert (L1 : suffix ls1 ls).
  { unfold normal_hunk_header_at in E. destruct ls as [|l ls]; [discriminate|].
    destruct (full_match normal_added_header l); [injection E as _ _ _ <-; apply suffix_cons|].
    destruct (full_match normal_removed_header l); [injection E as _ _ _ <-; apply suffix_cons|].
    destruct (full_match normal_changed_header l); [injection E as _ _ _ <-; apply suffix_cons|]. discriminate. }
  destruct (normal_hunk_body_defined ty a b ls1 m) as [F1 F2].
  destruct (normal_hunk_body ty a b ls1 m) as [[m1 ls2]| |] eqn:E2; cbn [bind]; [|split; [auto|discriminate]|split; [auto|discriminate]].
  specialize (F2 _ _ eq_refl). destruct (IH ls2 m1) as [G1 G2]. split; [exact G1|].
  intros m' ls' H. apply G2 in H. eauto using suffix_trans.
Qed.

(** * Headers and files *)
Definition fine_head (head : list str -> res (option dmodel * list str)) : Prop :=
  forall ls, safe ls -> ~ is_ub (head ls) /\ (forall m ls', head ls = Ok (Some m, ls') -> suffix ls' ls).
Lemma begins_starts p l (r : re) c : full_match (T p ~~ r) l = Some c -> exists x, l = lit p ++ x.
Proof. unfold full_match. intros E. inv_match E. eauto. Qed.
Lemma perforce_fine : fine_head (fun ls => Ok (perforce_diff_header ls)).
Proof.
  intros ls _. split; [auto|]. induction ls as [|l ls IH]; intros m ls'; cbn [perforce_diff_header]; [discriminate|].
  destruct (full_match perforce_header l); [intros H; injection H as _ <-; apply suffix_cons|].
  intros H. apply IH in H. eapply suffix_trans; [exact H|apply suffix_cons].
Qed.
Lemma unified_head_fine g : fine_head (unified_head_of g).
Proof.
  assert (U : fine_head unified_diff_header).
  { intros ls. induction ls as [|l ls IH]; intros S; cbn [unified_diff_header]; [split; [auto|discriminate]|].
    destruct (full_match unified_header1 l) as [c|] eqn:E.
    - destruct ls as [|l2 ls].
      + exfalso. apply begins_starts in E as [x ->]. exact (sf_last _ S [] x eq_refl).
      + destruct (full_match unified_header2 l2); [|split; [auto|discriminate]].
        split; [auto|]. intros m ls' H; injection H as _ <-. exists [l; l2]. reflexivity.
    - destruct (IH (safe_tail _ _ S)) as [IH1 IH2]. split; [exact IH1|]. intros m ls' H. apply IH2 in H.
      eapply suffix_trans; [exact H|apply suffix_cons]. }
  destruct g; [exact U|exact U|exact perforce_fine].
Qed.
Lemma context_head_fine g : fine_head (context_head_of g).
Proof.
  assert (U : forall h1 h2, (forall l c, full_match h1 l = Some c -> exists x, l = lit "*** " ++ x) -> fine_head (context_diff_header h1 h2)).
  { intros h1 h2 HB ls. induction ls as [|l ls IH]; intros S; cbn [context_diff_header]; [split; [auto|discriminate]|].
    destruct (full_match h1 l) as [c|] eqn:E.
    - destruct ls as [|l2 ls].
      + exfalso. apply HB in E as [x ->]. destruct (sf_context _ S [] x [] eq_refl) as (? & [] & _).
      + destruct (full_match h2 l2); [|split; [auto|discriminate]].
        split; [auto|]. intros m ls' H; injection H as _ <-. exists [l; l2]. reflexivity.
    - destruct (IH (safe_tail _ _ S)) as [IH1 IH2]. split; [exact IH1|]. intros m ls' H. apply IH2 in H.
      eapply suffix_trans; [exact H|apply suffix_cons]. }
  destruct g; cbn [context_head_of]; [apply U|apply U|exact perforce_fine]; intros l c; apply begins_starts.
Qed.
Lemma normal_head_fine g : fine_head (normal_head_of g).
Proof.
  assert (U : forall cvs ls m ls', normal_diff_header_search cvs ls = (Some m, ls') -> suffix ls' ls).
  { intros cvs ls. induction ls as [|l ls IH]; intros m ls'; cbn [normal_diff_header_search]; [discriminate|].
    destruct (full_match (if cvs then cvs_normal_header else normal_diff_header) l); [intros H; injection H as _ <-; apply suffix_cons|].
    intros H. apply IH in H. eapply suffix_trans; [exact H|apply suffix_cons]. }
  intros ls S. split; [auto|]. intros m ls' H. destruct g; unfold normal_head_of in H.
  - injection H as H. eauto.
  - injection H as H. eauto.
  - exact (proj2 (perforce_fine ls S) m ls' H).
Qed.
Lemma files_defined head hunks header : fine_head head ->
  (forall ls m, safe ls -> ~ is_ub (hunks ls m) /\ (forall m' ls', hunks ls m = Ok (m', ls') -> suffix ls' ls)) ->
  forall fuel ls ms bad, safe ls -> ~ is_ub (files head hunks header fuel ls ms bad).
Proof.
  intros HH HK. induction fuel as [|fuel IH]; intros ls ms bad S; [auto|]. cbn [files].
  destruct (HH ls S) as [D SF]. apply bind_def; [exact D|]. intros [[m|] ls1] E; [|auto].
  specialize (SF _ _ E). apply (fun x => safe_suffix _ _ x S) in SF.
  destruct (HK ls1 m SF) as [D2 SF2]. apply bind_def; [exact D2|]. intros [m2 ls2] E2. apply IH.
  eapply safe_suffix; [|exact SF]. eauto.
Qed.
Lemma base_parse_defined sort g lines : safe lines -> ~ is_ub (base_parse sort g lines).
Proof.
  intros S. unfold base_parse. destruct (determine_format g lines); auto.
  - apply bind_def; [|intros [ms b] _; auto]. unfold parse_context. apply bind_def; [|intros [[ms b] r] _; auto].
    apply files_defined; [apply context_head_fine| |exact S]. intros ls m. apply context_hunks_defined.
  - apply bind_def; [|intros [ms b] _; auto]. unfold parse_normal. apply bind_def.
    + apply files_defined; [apply normal_head_fine| |exact S]. intros ls m _. apply normal_hunks_defined.
    + intros [[ms b] r] _. destruct g; auto; (apply bind_def; [apply normal_hunks_defined|intros [m l] _; auto]).
  - apply bind_def; [|intros [ms b] _; auto]. unfold parse_unified. apply bind_def; [|intros [[ms b] r] _; auto].
    apply files_defined; [apply unified_head_fine| |exact S]. intros ls m. apply unified_hunks_defined.
Qed.
