(** Every loop of the parser ends: each round takes at least one line. *)
From Coq Require Import String Permutation.
From Verif Require Import Base QtStr Lev Diff Regex Patterns Parser SpecEdit SpecInline SpecPatch SpecParse
  PRegex PLev PHistory PEditLines PParse PUnified PHeaders PFileHeads PUnifiedDoc.
Local Open Scope Z_scope.

Lemma take_context_lines_ok ls : forall ts rest, take_context_lines ls = (ts, rest) -> ls = ts ++ rest.
Proof.
  induction ls as [|l ls IH]; intros ts rest; cbn [take_context_lines].
  - intros H; injection H as <- <-. reflexivity.
  - destruct (has_match context_line l).
    + destruct (take_context_lines ls) as [t r]. intros H; injection H as <- <-. cbn. f_equal. now apply IH.
    + intros H; injection H as <- <-. reflexivity.
Qed.
Lemma take_matching_length r ls : forall ts rest, take_matching r ls = (ts, rest) ->
  length ls = (length ts + length rest)%nat /\ (starts_matching r ls = true -> ts <> []).
Proof.
  induction ls as [|l ls IH]; intros ts rest; cbn [take_matching].
  - intros H; injection H as <- <-. split; [reflexivity|discriminate].
  - unfold starts_matching, has_match. destruct (full_match r l).
    + destruct (take_matching r ls) as [t rs]. intros H; injection H as <- <-. cbn.
      destruct (IH _ _ eq_refl) as [-> _]. split; [reflexivity|discriminate].
    + intros H; injection H as <- <-. split; [reflexivity|discriminate].
Qed.
(** The fuel of [take_both] is never what stops it. *)
Lemma take_both_ok fuel : forall old new ts old' new', take_both fuel old new = (ts, old', new') ->
  (length old + length new <= fuel)%nat ->
  (length old' <= length old)%nat /\ (length new' <= length new)%nat /\
  (end_or_context old' && end_or_context new' = false \/ (old' = [] /\ new' = []))%bool /\
  ((old <> [] \/ new <> []) -> (end_or_context old && end_or_context new = true)%bool ->
   (length old' + length new' < length old + length new)%nat).
Proof.
  induction fuel as [|fuel IH]; intros old new ts old' new' H L; cbn [take_both] in H.
  - destruct old; [|cbn in L; lia]. destruct new; [|cbn in L; lia]. injection H as <- <- <-.
    repeat split; auto. intros []; congruence.
  - destruct (end_or_context old && end_or_context new)%bool eqn:E; cbn [andb] in H.
    + destruct old as [|o old].
      * destruct new as [|n new].
        -- injection H as <- <- <-. repeat split; auto. intros []; congruence.
        -- cbn [negb tl] in H. destruct (take_both fuel [] new) as [[ts2 o2] n2] eqn:ET. injection H as <- <- <-.
           apply IH in ET as (A & B & C & D); [|cbn in *; lia]. cbn [length] in *. repeat split; auto; lia.
      * cbn [negb] in H. destruct new as [|n new]; cbn [tl] in H.
        -- destruct (take_both fuel old []) as [[ts2 o2] n2] eqn:ET. injection H as <- <- <-.
           apply IH in ET as (A & B & C & D); [|cbn in *; lia]. cbn [length] in *. repeat split; auto; lia.
        -- destruct (take_both fuel old new) as [[ts2 o2] n2] eqn:ET. injection H as <- <- <-.
           apply IH in ET as (A & B & C & D); [|cbn in *; lia]. cbn [length] in *. repeat split; auto; lia.
    + injection H as <- <- <-. repeat split; auto. congruence.
Qed.
Lemma context_body_fuel fuel : forall a b old new, (length old + length new < fuel)%nat ->
  context_body_loop fuel a b old new <> OutOfFuel.
Proof.
  assert (NE : forall (l : list str), l <> [] -> (1 <= length l)%nat) by (intros [|? ?]; cbn; [congruence|lia]).
  induction fuel as [|fuel IH]; intros a b old new L; [lia|]. cbn [context_body_loop].
  assert (G : (if starts_matching context_removed old then
            let '(ts, old) := take_matching context_removed old in
            do d <- determine_inline (with_texts ts [] (new_diff a b Delete));
            do ds <- context_body_loop fuel (a + Z.of_nat (length ts)) b old new;
            Ok (d :: ds)
          else if starts_matching context_added new then
            let '(ts, new) := take_matching context_added new in
            do d <- determine_inline (with_texts [] ts (new_diff a b Insert));
            do ds <- context_body_loop fuel a (b + Z.of_nat (length ts)) old new;
            Ok (d :: ds)
          else if (end_or_context old && end_or_context new)%bool then
            let '(ts, old, new) := take_both (length old + length new) old new in
            do d <- determine_inline (with_texts ts ts (new_diff a b Unchanged));
            do ds <- context_body_loop fuel (a + Z.of_nat (length ts)) (b + Z.of_nat (length ts)) old new;
            Ok (d :: ds)
          else if (starts_matching context_changed old || starts_matching context_changed new)%bool then
            let '(ts1, old) := take_matching context_changed old in
            let '(ts2, new) := take_matching context_changed new in
            do d <- determine_inline (with_texts ts1 ts2 (new_diff a b Change));
            do ds <- context_body_loop fuel (a + Z.of_nat (length ts1)) (b + Z.of_nat (length ts2)) old new;
            Ok (d :: ds)
          else Ok []) <> OutOfFuel \/ (old = [] /\ new = [])).
  { destruct (starts_matching context_removed old) eqn:E1; [left|].
    { destruct (take_matching context_removed old) as [ts o] eqn:ET.
      apply take_matching_length in ET as [EL N]. specialize (N E1). apply NE in N.
      apply bind_fuel; [apply determine_inline_fuel|intros d _].
      apply bind_fuel; [apply IH; unfold str, chr in *; lia|]. discriminate. }
    destruct (starts_matching context_added new) eqn:E2; [left|].
    { destruct (take_matching context_added new) as [ts o] eqn:ET.
      apply take_matching_length in ET as [EL N]. specialize (N E2). apply NE in N.
      apply bind_fuel; [apply determine_inline_fuel|intros d _].
      apply bind_fuel; [apply IH; unfold str, chr in *; lia|]. discriminate. }
    destruct (end_or_context old && end_or_context new)%bool eqn:E3.
    { destruct (take_both _ old new) as [[ts o] n] eqn:ET.
      apply take_both_ok in ET as (_ & _ & _ & D); [|lia].
      assert (G : (old <> [] \/ new <> []) \/ (old = [] /\ new = [])).
      { destruct old; [|left; left; discriminate]. destruct new; [auto|left; right; discriminate]. }
      destruct G as [G|G]; [left|right; exact G]. specialize (D G E3).
      apply bind_fuel; [apply determine_inline_fuel|intros d _].
      apply bind_fuel; [apply IH; lia|]. discriminate. }
    left. destruct (_ || _)%bool eqn:E4; [|discriminate].
    destruct (take_matching context_changed old) as [ts1 o] eqn:ET1.
    destruct (take_matching context_changed new) as [ts2 n] eqn:ET2.
    apply take_matching_length in ET1 as [EL1 N1]. apply take_matching_length in ET2 as [EL2 N2].
    apply bind_fuel; [apply determine_inline_fuel|intros d _].
    apply bind_fuel; [apply IH|discriminate].
    apply orb_prop in E4 as [E4|E4]; [apply N1, NE in E4|apply N2, NE in E4]; unfold str, chr in *; lia. }
  destruct old as [|o old]; [destruct new as [|n new]|]; try discriminate; destruct G as [G|[G G']]; try exact G; discriminate.
Qed.
Lemma context_hunk_body_fuel c1 c2 ls m : context_hunk_body c1 c2 ls m <> OutOfFuel /\
  (forall m' ls', context_hunk_body c1 c2 ls m = Ok (m', ls') -> (length ls' <= length ls)%nat).
Proof.
  unfold context_hunk_body. destruct (take_context_lines ls) as [old r] eqn:E1. apply take_context_lines_ok in E1 as ->.
  destruct r as [|l r]; [split; discriminate|].
  destruct (full_match context_hunk_header3 l) as [c3|].
  2: { split; [discriminate|]. intros m' ls' H; injection H as <- <-. rewrite app_length. lia. }
  destruct (take_context_lines r) as [new rest] eqn:E2. apply take_context_lines_ok in E2 as ->.
  split.
  - apply bind_fuel; [apply context_body_fuel; lia|]. intros ds _. rewrite add_parsed_hunk_ok. discriminate.
  - intros m' ls'. destruct (context_body_loop _ _ _ _ _); try discriminate. cbn [bind].
    rewrite add_parsed_hunk_ok. cbn [bind]. intros H; injection H as <- <-. rewrite app_length. cbn [length].
    rewrite app_length. lia.
Qed.
Lemma context_hunks_fuel fuel : forall ls m, (length ls < fuel)%nat ->
  context_hunks fuel ls m <> OutOfFuel /\
  (forall m' ls', context_hunks fuel ls m = Ok (m', ls') -> (length ls' <= length ls)%nat).
Proof.
  induction fuel as [|fuel IH]; intros ls m L; [lia|]. cbn [context_hunks]. unfold context_hunk_header_at.
  destruct ls as [|l ls]. { split; [discriminate|]. intros m' ls' H; injection H as <- <-. lia. }
  destruct (full_match context_hunk_header1 l) as [c1|].
  2: { split; [discriminate|]. intros m' ls' H; injection H as <- <-. lia. }
  destruct ls as [|l2 ls]. { split; [discriminate|]. intros m' ls' H; injection H as <- <-. cbn; lia. }
  destruct (full_match context_hunk_header2 l2) as [c2|].
  2: { split; [discriminate|]. intros m' ls' H; injection H as <- <-. cbn; lia. }
  destruct (context_hunk_body_fuel c1 c2 ls m) as [F1 F2]. cbn [length] in *.
  destruct (context_hunk_body c1 c2 ls m) as [[m1 ls1]| |] eqn:E; cbn [bind].
  - specialize (F2 _ _ eq_refl). destruct (IH ls1 m1) as [G1 G2]; [lia|]. split; [exact G1|].
    intros m' ls' H. apply G2 in H. lia.
  - split; discriminate.
  - congruence.
Qed.
Lemma normal_hunk_body_fuel ty a b ls m : normal_hunk_body ty a b ls m <> OutOfFuel /\
  (forall m' ls', normal_hunk_body ty a b ls m = Ok (m', ls') -> (length ls' <= length ls)%nat).
Proof.
  unfold normal_hunk_body.
  destruct (match ty with Change | Delete => take_matching normal_removed ls | _ => ([], ls) end) as [sl ls1] eqn:E1.
  assert (L1 : (length ls1 <= length ls)%nat).
  { destruct ty; try (injection E1 as <- <-; lia); apply take_matching_length in E1 as [E1 _]; lia. }
  clear E1.
  destruct (match ty with Change => match ls1 with l :: ls' => if has_match normal_divider l then Some ls' else None | [] => None end | _ => Some ls1 end) as [ls2|] eqn:E2.
  - assert (L2 : (length ls2 <= length ls1)%nat).
    { destruct ty; try (injection E2 as <-; lia). destruct ls1; [discriminate|]. destruct (has_match _ _); [|discriminate].
      injection E2 as <-. cbn; lia. }
    destruct (match ty with Change | Insert => take_matching normal_added ls2 | _ => ([], ls2) end) as [dl ls3] eqn:E3.
    assert (L3 : (length ls3 <= length ls2)%nat).
    { destruct ty; try (injection E3 as <- <-; lia); apply take_matching_length in E3 as [E3 _]; lia. }
    rewrite add_parsed_hunk_ok. cbn [bind]. split; [discriminate|]. intros m' ls' H; injection H as <- <-. lia.
  - rewrite add_parsed_hunk_ok. cbn [bind]. split; [discriminate|]. intros m' ls' H; injection H as <- <-. lia.
Qed.
Lemma normal_hunks_fuel fuel : forall ls m, (length ls < fuel)%nat ->
  normal_hunks fuel ls m <> OutOfFuel /\
  (forall m' ls', normal_hunks fuel ls m = Ok (m', ls') -> (length ls' <= length ls)%nat).
Proof.
  induction fuel as [|fuel IH]; intros ls m L; [lia|]. cbn [normal_hunks].
  destruct (normal_hunk_header_at ls) as [[[[ty a] b] ls1]|] eqn:E.
  2: { split; [discriminate|]. intros m' ls' H; injection H as <- <-. lia. }
  assert (L1 : (length ls1 < length ls)%nat).
  { unfold normal_hunk_header_at in E. destruct ls as [|l ls]; [discriminate|].
    destruct (full_match normal_added_header l); [injection E as _ _ _ <-; cbn; lia|].
    destruct (full_match normal_removed_header l); [injection E as _ _ _ <-; cbn; lia|].
    destruct (full_match normal_changed_header l); [injection E as _ _ _ <-; cbn; lia|]. discriminate. }
  destruct (normal_hunk_body_fuel ty a b ls1 m) as [F1 F2].
  destruct (normal_hunk_body ty a b ls1 m) as [[m1 ls2]| |] eqn:E2; cbn [bind].
  - specialize (F2 _ _ eq_refl). destruct (IH ls2 m1) as [G1 G2]; [lia|]. split; [exact G1|].
    intros m' ls' H. apply G2 in H. lia.
  - split; discriminate.
  - congruence.
Qed.
Lemma unified_hunks_length fuel ls m m' ls' : (length ls < fuel)%nat -> unified_hunks fuel ls m = Ok (m', ls') -> (length ls' <= length ls)%nat.
Proof.
  revert ls m. induction fuel as [|fuel IH]; intros ls m L H; [lia|]. cbn [unified_hunks] in H.
  unfold unified_hunk_header_at in H. destruct ls as [|l ls]; [injection H as <- <-; lia|].
  destruct (full_match unified_hunk_header l) as [c|]; [|injection H as <- <-; lia]. cbn [length] in *.
  destruct (unified_hunk_body c ls m) as [[m1 ls1]| |] eqn:E; try discriminate. cbn [bind] in H.
  assert (length ls1 <= length ls)%nat; [|apply IH in H; lia].
  unfold unified_hunk_body in E.
  destruct (hunk_side _ _) as [[a ca]|]; [|injection E as <- <-; lia].
  destruct (hunk_side _ _) as [[b cb]|]; [|injection E as <- <-; lia].
  destruct (unified_body_loop _ _) as [[ds rest]| |] eqn:EL; try discriminate. cbn [bind] in E.
  rewrite add_parsed_hunk_ok in E. injection E as <- <-.
  apply unified_body_ok in EL as (R & _). cbn [uc_rest] in R. apply (f_equal (@length _)) in R.
  rewrite app_length in R. unfold str, chr in *. lia.
Qed.

(** * Headers *)
Lemma unified_head_fuel g ls : unified_head_of g ls <> OutOfFuel /\
  (forall m ls', unified_head_of g ls = Ok (Some m, ls') -> (length ls' < length ls)%nat).
Proof.
  assert (P : forall m ls', perforce_diff_header ls = (Some m, ls') -> (length ls' < length ls)%nat).
  { induction ls as [|l ls IH]; intros m ls'; cbn [perforce_diff_header]; [discriminate|].
    destruct (full_match perforce_header l); [intros H; injection H as _ <-; cbn; lia|].
    intros H. apply IH in H. cbn; lia. }
  assert (U : unified_diff_header ls <> OutOfFuel /\ forall m ls', unified_diff_header ls = Ok (Some m, ls') -> (length ls' < length ls)%nat).
  { clear P. induction ls as [|l ls [IH1 IH2]]; cbn [unified_diff_header]; [split; discriminate|].
    destruct (full_match unified_header1 l).
    - destruct ls as [|l2 ls]; [split; discriminate|]. destruct (full_match unified_header2 l2); [|split; discriminate].
      split; [discriminate|]. intros m ls' H; injection H as _ <-. cbn; lia.
    - split; [exact IH1|]. intros m ls' H. apply IH2 in H. cbn; lia. }
  destruct g; cbn; auto. split; [discriminate|]. intros m ls' H. injection H as H. eauto.
Qed.
Lemma context_head_fuel g ls : context_head_of g ls <> OutOfFuel /\
  (forall m ls', context_head_of g ls = Ok (Some m, ls') -> (length ls' < length ls)%nat).
Proof.
  assert (U : forall h1 h2, context_diff_header h1 h2 ls <> OutOfFuel /\ forall m ls', context_diff_header h1 h2 ls = Ok (Some m, ls') -> (length ls' < length ls)%nat).
  { intros h1 h2. induction ls as [|l ls [IH1 IH2]]; cbn [context_diff_header]; [split; discriminate|].
    destruct (full_match h1 l).
    - destruct ls as [|l2 ls]; [split; discriminate|]. destruct (full_match h2 l2); [|split; discriminate].
      split; [discriminate|]. intros m ls' H; injection H as _ <-. cbn; lia.
    - split; [exact IH1|]. intros m ls' H. apply IH2 in H. cbn; lia. }
  destruct g; cbn [context_head_of]; auto. exact (unified_head_fuel Perforce ls).
Qed.
Lemma normal_head_fuel g ls : normal_head_of g ls <> OutOfFuel /\
  (forall m ls', normal_head_of g ls = Ok (Some m, ls') -> (length ls' < length ls)%nat).
Proof.
  assert (U : forall cvs m ls', normal_diff_header_search cvs ls = (Some m, ls') -> (length ls' < length ls)%nat).
  { intros cvs. induction ls as [|l ls IH]; intros m ls'; cbn [normal_diff_header_search]; [discriminate|].
    destruct (full_match (if cvs then cvs_normal_header else normal_diff_header) l); [intros H; injection H as _ <-; cbn; lia|].
    intros H. apply IH in H. cbn; lia. }
  unfold normal_head_of. split; [discriminate|]. destruct g.
  - intros m ls' H. injection H as H. eapply U; eauto.
  - intros m ls' H. injection H as H. eapply U; eauto.
  - exact (proj2 (unified_head_fuel Perforce ls)).
Qed.

Lemma parse_unified_fuel g ls : parse_unified g ls <> OutOfFuel.
Proof.
  unfold parse_unified. apply bind_fuel; [|intros [[ms b] r] _; discriminate].
  apply files_fuel; try lia.
  - intros l. apply unified_head_fuel.
  - intros l m l' H. eapply unified_head_fuel; eauto.
  - intros l m. apply unified_hunks_fuel. lia.
  - intros l m m' l' H. eapply unified_hunks_length; [|exact H]. lia.
Qed.
Lemma parse_context_fuel g ls : parse_context g ls <> OutOfFuel.
Proof.
  unfold parse_context. apply bind_fuel; [|intros [[ms b] r] _; discriminate].
  apply files_fuel; try lia.
  - intros l. apply context_head_fuel.
  - intros l m l' H. eapply context_head_fuel; eauto.
  - intros l m. apply context_hunks_fuel. lia.
  - intros l m m' l' H. eapply context_hunks_fuel; [|exact H]. lia.
Qed.
Lemma parse_normal_fuel g ls : parse_normal g ls <> OutOfFuel.
Proof.
  unfold parse_normal. apply bind_fuel.
  - apply files_fuel; try lia.
    + intros l. apply normal_head_fuel.
    + intros l m l' H. eapply normal_head_fuel; eauto.
    + intros l m. apply normal_hunks_fuel. lia.
    + intros l m m' l' H. eapply normal_hunks_fuel; [|exact H]. lia.
  - intros [[ms b] r] _. destruct g; try discriminate.
    all: apply bind_fuel; [apply normal_hunks_fuel; lia|intros [m l] _; discriminate].
Qed.
Lemma clean_loop_fuel ls : forall done n, clean_loop done ls n <> OutOfFuel.
Proof.
  induction ls as [|l ls IH]; intros done n; cbn [clean_loop]; [discriminate|].
  destruct (starts_with _ l); [|apply IH]. destruct done; [discriminate|apply IH].
Qed.
Lemma parse_fuel sort lines : parse sort lines <> OutOfFuel.
Proof.
  unfold parse. apply bind_fuel; [apply clean_loop_fuel|]. intros [ls n] _.
  apply bind_fuel; [|intros [ms b] _; discriminate].
  unfold base_parse. destruct (determine_format _ ls); try discriminate;
    (apply bind_fuel; [|intros [ms b] _; discriminate]).
  - apply parse_context_fuel.
  - apply parse_normal_fuel.
  - apply parse_unified_fuel.
Qed.
