(** Unified hunk bodies and hunks on any input. *)
From Coq Require Import String Permutation.
From Verif Require Import Base QtStr Lev Diff Regex Patterns Parser SpecEdit SpecInline SpecPatch SpecParse
  PRegex PLev PHistory PEditLines PParse.
Local Open Scope Z_scope.

Definition more (sl dl : list str) (d : difference) : difference :=
  set_lines (d_slines d ++ map new_ds sl) (d_dlines d ++ map new_ds dl) d.
Lemma more_nil d : more [] [] d = d.
Proof. unfold more. cbn. rewrite !app_nil_r. destruct d; reflexivity. Qed.
Lemma more_more s1 d1 s2 d2 d : more s1 d1 (more s2 d2 d) = more (s2 ++ s1) (d2 ++ d1) d.
Proof. unfold more, set_lines. cbn. rewrite !map_app, !app_assoc. reflexivity. Qed.
Lemma add_both t d : add_destination_line t (add_source_line t d) = more [t] [t] d.
Proof. reflexivity. Qed.
Lemma add_src t d : add_source_line t d = more [t] [] d.
Proof. unfold more. cbn. rewrite app_nil_r. reflexivity. Qed.
Lemma add_dst t d : add_destination_line t d = more [] [t] d.
Proof. unfold more. cbn. rewrite app_nil_r. reflexivity. Qed.

Lemma starts_with_1 c l : starts_with [c] l = true -> exists l', l = c :: l'.
Proof. destruct l as [|x l]; cbn; [discriminate|]. rewrite andb_true_r. intros H. apply N.eqb_eq in H as ->. eauto. Qed.

Lemma starts_with_hd c x l : starts_with [c] (x :: l) = N.eqb x c.
Proof. cbn [starts_with]. rewrite andb_true_r. apply N.eqb_sym. Qed.

Lemma take_context_ok ls : forall a b ca cb d d' c',
  take_context ls a b ca cb d = (d', c') ->
  exists ts, ls = map (cons SP) ts ++ uc_rest c' /\ d' = more ts ts d /\
    uc_a c' = a + count ts /\ uc_b c' = b + count ts /\ uc_ca c' = ca - count ts /\ uc_cb c' = cb - count ts /\
    (forall l ls', ls = l :: ls' -> starts_with [SP] l = true -> counting ca cb = true -> ts <> []).
Proof.
  unfold count. induction ls as [|l ls IH]; intros a b ca cb d d' c' H; cbn [take_context] in H.
  - injection H as <- <-. exists []. cbn [map app length uc_rest uc_a uc_b uc_ca uc_cb]. rewrite more_nil. repeat split; try lia. intros; discriminate.
  - destruct (starts_with [SP] l && counting ca cb)%bool eqn:E.
    + apply andb_prop in E as [E1 E2]. apply starts_with_1 in E1 as [l' ->].
      apply IH in H as (ts & -> & -> & H1 & H2 & H3 & H4 & _). cbn [skipn].
      exists (l' :: ts). rewrite add_both, more_more. cbn [app map length]. repeat split; try lia; try congruence.
    + injection H as <- <-. exists []. cbn [map app length uc_rest uc_a uc_b uc_ca uc_cb]. rewrite more_nil. repeat split; try lia.
      intros l0 ls0 E0 A B. injection E0 as <- <-. rewrite A, B in E. discriminate.
Qed.
Lemma take_removed_ok ls : forall a b ca cb d d' c',
  take_removed ls a b ca cb d = (d', c') ->
  exists ts, ls = map (cons 45%N) ts ++ uc_rest c' /\ d' = more ts [] d /\
    uc_a c' = a + count ts /\ uc_b c' = b /\ uc_ca c' = ca - count ts /\ uc_cb c' = cb /\
    (forall l ls', ls = l :: ls' -> starts_with [45%N] l = true -> counting ca cb = true -> ts <> []).
Proof.
  unfold count. induction ls as [|l ls IH]; intros a b ca cb d d' c' H; cbn [take_removed] in H.
  - injection H as <- <-. exists []. cbn [map app length uc_rest uc_a uc_b uc_ca uc_cb]. rewrite more_nil. repeat split; try lia. intros; discriminate.
  - destruct (starts_with [45%N] l && counting ca cb)%bool eqn:E.
    + apply andb_prop in E as [E1 E2]. apply starts_with_1 in E1 as [l' ->].
      apply IH in H as (ts & -> & -> & H1 & H2 & H3 & H4 & _). cbn [skipn].
      exists (l' :: ts). rewrite add_src, more_more. cbn [app map length]. repeat split; try lia; try congruence.
    + injection H as <- <-. exists []. cbn [map app length uc_rest uc_a uc_b uc_ca uc_cb]. rewrite more_nil. repeat split; try lia.
      intros l0 ls0 E0 A B. injection E0 as <- <-. rewrite A, B in E. discriminate.
Qed.
Lemma take_added_ok ls : forall a b ca cb d d' c',
  take_added ls a b ca cb d = (d', c') ->
  exists ts, ls = map (cons 43%N) ts ++ uc_rest c' /\ d' = more [] ts d /\
    uc_a c' = a /\ uc_b c' = b + count ts /\ uc_ca c' = ca /\ uc_cb c' = cb - count ts /\
    (forall l ls', ls = l :: ls' -> starts_with [43%N] l = true -> counting ca cb = true -> ts <> []).
Proof.
  unfold count. induction ls as [|l ls IH]; intros a b ca cb d d' c' H; cbn [take_added] in H.
  - injection H as <- <-. exists []. cbn [map app length uc_rest uc_a uc_b uc_ca uc_cb]. rewrite more_nil. repeat split; try lia. intros; discriminate.
  - destruct (starts_with [43%N] l && counting ca cb)%bool eqn:E.
    + apply andb_prop in E as [E1 E2]. apply starts_with_1 in E1 as [l' ->].
      apply IH in H as (ts & -> & -> & H1 & H2 & H3 & H4 & _). cbn [skipn].
      exists (l' :: ts). rewrite add_dst, more_more. cbn [app map length]. repeat split; try lia; try congruence.
    + injection H as <- <-. exists []. cbn [map app length uc_rest uc_a uc_b uc_ca uc_cb]. rewrite more_nil. repeat split; try lia.
      intros l0 ls0 E0 A B. injection E0 as <- <-. rewrite A, B in E. discriminate.
Qed.

Definition raw (d : difference) : Prop :=
  d_applied d = false /\ d_unsaved d = false /\ d_conflicts d = false /\ d_connected d = false.
Lemma lines_of_new ts : lines_of (map new_ds ts) = ts.
Proof. unfold lines_of. rewrite map_map. cbn. apply map_id. Qed.
Lemma lines_of_length l : length (lines_of l) = length l.
Proof. apply map_length. Qed.
Lemma same_text_length l l' : Forall2 same_text l l' -> length l' = length l.
Proof. intros H. symmetry. induction H; cbn; auto. Qed.

(** One real difference of a hunk. *)
Lemma change_diff_ok a b sl dl d :
  sl <> [] \/ dl <> [] ->
  determine_inline (let d := more [] dl (more sl [] (new_diff a b Unchanged)) in
     if Nat.eqb (length (d_slines d)) 0 then set_type Insert d
     else if Nat.eqb (length (d_dlines d)) 0 then set_type Delete d else set_type Change d) = Ok d ->
  d_src d = a /\ d_dst d = b /\ d_track d = a /\ well_typed d /\ raw d /\ is_context d = false /\
  lines_of (d_slines d) = sl /\ lines_of (d_dlines d) = dl.
Proof.
  intros NE H. apply determine_inline_shape in H as (sl' & dl' & -> & F1 & F2).
  rewrite more_more in *. cbn [app] in *. rewrite app_nil_r in *.
  pose proof (same_text_lines _ _ F1) as T1. pose proof (same_text_lines _ _ F2) as T2.
  pose proof (same_text_length _ _ F1) as L1. pose proof (same_text_length _ _ F2) as L2.
  clear F1 F2.
  replace (d_slines (more sl dl (new_diff a b Unchanged))) with (map new_ds sl) in * by reflexivity.
  replace (d_dlines (more sl dl (new_diff a b Unchanged))) with (map new_ds dl) in * by reflexivity.
  rewrite !map_length in *.
  destruct sl as [|s sl]; cbn [length Nat.eqb] in *.
  - cbn in T1, T2, L1, L2. rewrite lines_of_new in T2. destruct sl'; [|discriminate].
    destruct dl' as [|y dl']; [destruct dl; [tauto|discriminate]|].
    unfold well_typed, raw, is_context; cbn. repeat split; auto; discriminate.
  - destruct dl as [|y dl]; cbn [length Nat.eqb] in *.
    + cbn in T1, T2, L1, L2. rewrite lines_of_new in T1. destruct dl'; [|discriminate].
      destruct sl' as [|y sl']; [discriminate|].
      unfold well_typed, raw, is_context; cbn. repeat split; auto; discriminate.
    + cbn [set_type more set_lines d_slines d_dlines] in T1, T2, L1, L2.
      cbn [new_diff d_slines d_dlines app] in T1, T2, L1, L2.
      rewrite lines_of_new in T1, T2. rewrite map_length in L1, L2.
      destruct sl' as [|y1 sl']; [discriminate|]. destruct dl' as [|y2 dl']; [discriminate|].
      unfold well_typed, raw, is_context; cbn [set_lines set_type more d_type d_src d_dst d_track d_slines d_dlines
        d_applied d_unsaved d_conflicts d_connected new_diff].
      repeat split; auto; discriminate.
Qed.

Lemma unified_body_ok fuel : forall c ds rest,
  unified_body_loop fuel c = Ok (ds, rest) ->
  uc_rest c = concat (map printed ds) ++ rest /\ contiguous (uc_a c) (uc_b c) ds /\
  Forall well_typed ds /\ Forall raw ds.
Proof.
  induction fuel as [|fuel IH]; intros c ds rest H; [discriminate|]. cbn [unified_body_loop] in H.
  destruct (uc_rest c) as [|l ls] eqn:ER.
  { injection H as <- <-. cbn. repeat split; auto. }
  destruct (matches_unified_hunk_line l) as [isl| |] eqn:EM; try discriminate. cbn [bind] in H.
  destruct (isl && counting (uc_ca c) (uc_cb c))%bool eqn:EC.
  2: { injection H as <- <-. cbn. repeat split; auto. }
  apply andb_prop in EC as [-> EC].
  destruct (starts_with [SP] l) eqn:ES.
  - destruct (take_context _ _ _ _ _ _) as [d' c'] eqn:ET.
    apply take_context_ok in ET as (ts & E1 & -> & Ha & Hb & _ & _ & NE).
    destruct (unified_body_loop fuel c') as [[ds' rest']| |] eqn:EL; try discriminate. cbn [bind] in H.
    injection H as <- <-. apply IH in EL as (R & C & W & RW).
    specialize (NE l ls eq_refl ES EC).
    assert (P : printed (more ts ts (new_diff (uc_a c) (uc_b c) Unchanged)) = map (cons SP) ts).
    { unfold printed, is_context, prefixed. cbn. rewrite lines_of_new. reflexivity. }
    cbn [map concat]. rewrite P, E1, R, app_assoc. repeat split; auto.
    + cbn. unfold count in *. rewrite map_length. rewrite Ha, Hb in C. exact C.
    + constructor; [|exact W]. cbn. split; [|reflexivity]. destruct ts; [congruence|discriminate].
    + constructor; [|exact RW]. repeat split.
  - destruct (take_removed _ _ _ _ _ _) as [d1 c1] eqn:ET1.
    apply take_removed_ok in ET1 as (sl & E1 & -> & Ha & Hb & Hca & Hcb & NE1).
    destruct (take_added _ _ _ _ _ _) as [d2 c2] eqn:ET2.
    apply take_added_ok in ET2 as (dl & E2 & -> & Ha2 & Hb2 & _ & _ & NE2).
    destruct (determine_inline _) as [d| |] eqn:ED; try discriminate. cbn [bind] in H.
    destruct (unified_body_loop fuel c2) as [[ds' rest']| |] eqn:EL; try discriminate. cbn [bind] in H.
    injection H as <- <-. apply IH in EL as (R & C & W & RW).
    assert (NE : sl <> [] \/ dl <> []).
    { destruct sl as [|x sl]; [|left; discriminate]. right.
      cbn in E1. rewrite <- E1 in NE2.
      unfold matches_unified_hunk_line in EM. destruct l as [|x l]; [discriminate|].
      rewrite starts_with_hd in ES.
      injection EM as EM. rewrite ES in EM. cbn [orb] in EM.
      destruct (N.eqb_spec x 45) as [->|NX].
      - exfalso. apply (NE1 _ _ eq_refl); [reflexivity|exact EC|reflexivity].
      - rewrite orb_false_r in EM. apply (NE2 (x :: l) _ eq_refl).
        + rewrite starts_with_hd. exact EM.
        + unfold count in Hca. cbn in Hca. rewrite Z.sub_0_r in Hca. rewrite Hca, Hcb. exact EC. }
    apply (change_diff_ok _ _ _ _ _ NE) in ED as (D1 & D2 & D3 & D4 & D5 & D6 & D7 & D8).
    assert (P : printed d = map (cons 45%N) sl ++ map (cons 43%N) dl).
    { unfold printed. rewrite D6. unfold prefixed. rewrite D7, D8. reflexivity. }
    cbn [map concat]. rewrite P, E1, E2, R, !app_assoc. repeat split; auto.
    cbn. unfold count in *. rewrite <- (lines_of_length (d_slines d)), <- (lines_of_length (d_dlines d)), D7, D8.
    replace (uc_b c2) with (uc_b c + Z.of_nat (length dl)) in C by lia.
    replace (uc_a c2) with (uc_a c + Z.of_nat (length sl)) in C by lia. auto.
Qed.

(** Fuel: every round of the body loop takes a line. *)
Lemma unified_body_fuel fuel : forall c, (length (uc_rest c) < fuel)%nat -> unified_body_loop fuel c <> OutOfFuel.
Proof.
  induction fuel as [|fuel IH]; intros c L; [lia|]. cbn [unified_body_loop].
  destruct (uc_rest c) as [|l ls] eqn:ER; [discriminate|].
  apply bind_fuel. { unfold matches_unified_hunk_line. destruct l; discriminate. }
  intros isl EM. destruct (isl && counting (uc_ca c) (uc_cb c))%bool eqn:EC; [|discriminate].
  apply andb_prop in EC as [-> EC].
  destruct (starts_with [SP] l) eqn:ES.
  - destruct (take_context _ _ _ _ _ _) as [d' c'] eqn:ET.
    apply take_context_ok in ET as (ts & E1 & -> & _ & _ & _ & _ & NE).
    specialize (NE l ls eq_refl ES EC).
    assert (length (uc_rest c') < fuel)%nat.
    { apply (f_equal (@length _)) in E1. rewrite app_length, map_length in E1. cbn [length] in L, E1. destruct ts; [congruence|]. cbn [length] in E1. unfold str, chr in *. lia. }
    apply bind_fuel; [apply IH; assumption|]. intros [x y] _. discriminate.
  - destruct (take_removed _ _ _ _ _ _) as [d1 c1] eqn:ET1.
    apply take_removed_ok in ET1 as (sl & E1 & -> & _ & _ & Hca & Hcb & NE1).
    destruct (take_added _ _ _ _ _ _) as [d2 c2] eqn:ET2.
    apply take_added_ok in ET2 as (dl & E2 & -> & _ & _ & _ & _ & NE2).
    assert (length (uc_rest c2) < fuel)%nat.
    { rewrite E2, app_assoc in E1.
      assert (NE : sl <> [] \/ dl <> []).
      { destruct sl as [|x sl]; [|left; discriminate]. right.
        cbn in E1. rewrite <- E2 in E1. rewrite <- E1 in NE2.
        unfold matches_unified_hunk_line in EM. destruct l as [|x l]; [discriminate|].
        rewrite starts_with_hd in ES.
        injection EM as EM. rewrite ES in EM. cbn [orb] in EM.
        destruct (N.eqb_spec x 45) as [->|NX].
        - exfalso. apply (NE1 _ _ eq_refl); [reflexivity|exact EC|reflexivity].
        - rewrite orb_false_r in EM. apply (NE2 (x :: l) _ eq_refl).
          + rewrite starts_with_hd. exact EM.
          + unfold count in Hca. cbn in Hca. rewrite Z.sub_0_r in Hca. rewrite Hca, Hcb. exact EC. }
      apply (f_equal (@length _)) in E1. rewrite !app_length, !map_length in E1. cbn [length] in L, E1.
      destruct sl, dl; cbn [length] in E1; [destruct NE; congruence| | |]; unfold str, chr in *; lia. }
    apply bind_fuel; [apply determine_inline_fuel|intros d _].
    apply bind_fuel; [apply IH; assumption|]. intros [x y] _. discriminate.
Qed.
