(** The checked arithmetic of the parsers (Ints.v) agrees with the unbounded one (Parser.v). *)
From Coq Require Import String.
From Verif Require Import Base QtStr Lev Diff Regex Patterns Parser Ints SpecInts SpecEdit SpecInline SpecPatch SpecParse
  PRegex PLev PHistory PEditLines PParse PUnified PHeaders PFileHeads PUnifiedDoc PFuel PAnyInput PDefined.
Local Open Scope Z_scope.

(** * Either the same or an overflow *)
Definition overflow : string := "signed integer overflow".
Definition same_or_over {A} (x y : res A) : Prop := x = y \/ x = UB overflow.
Lemma so_refl {A} (x : res A) : same_or_over x x. Proof. now left. Qed.
Lemma so_bind {A B} (x y : res A) (f g : A -> res B) : same_or_over x y -> (forall a, same_or_over (f a) (g a)) ->
  same_or_over (bind x f) (bind y g).
Proof. intros [->| ->] H; [|now right]. destruct y; cbn; [apply H|now left|now left]. Qed.
Lemma so_int {A} z (f : Z -> res A) y : same_or_over (f z) y -> same_or_over (bind (int_of z) f) y.
Proof. intros H. unfold int_of. destruct (in_int z); [exact H|now right]. Qed.
Lemma so_ok {A B} (x : res A) z (f : A -> res B) y : same_or_over x (Ok z) -> same_or_over (f z) y -> same_or_over (bind x f) y.
Proof. intros [->| ->] H; [exact H|now right]. Qed.

Lemma so_take_context ls : forall a b ca cb d, same_or_over (take_context_int ls a b ca cb d) (Ok (take_context ls a b ca cb d)).
Proof.
  induction ls as [|l ls IH]; intros; cbn [take_context_int take_context]; [apply so_refl|].
  destruct (_ && _)%bool; [|apply so_refl]. do 4 apply so_int. apply IH.
Qed.
Lemma so_take_removed ls : forall a b ca cb d, same_or_over (take_removed_int ls a b ca cb d) (Ok (take_removed ls a b ca cb d)).
Proof.
  induction ls as [|l ls IH]; intros; cbn [take_removed_int take_removed]; [apply so_refl|].
  destruct (_ && _)%bool; [|apply so_refl]. do 2 apply so_int. apply IH.
Qed.
Lemma so_take_added ls : forall a b ca cb d, same_or_over (take_added_int ls a b ca cb d) (Ok (take_added ls a b ca cb d)).
Proof.
  induction ls as [|l ls IH]; intros; cbn [take_added_int take_added]; [apply so_refl|].
  destruct (_ && _)%bool; [|apply so_refl]. do 2 apply so_int. apply IH.
Qed.
Lemma so_unified_body fuel : forall c, same_or_over (unified_body_loop_int fuel c) (unified_body_loop fuel c).
Proof.
  induction fuel as [|fuel IH]; intros c; [apply so_refl|]. cbn [unified_body_loop_int unified_body_loop].
  destruct (uc_rest c) as [|l ls]; [apply so_refl|]. apply so_bind; [apply so_refl|intros isl].
  destruct (_ && _)%bool; [|apply so_refl]. cbv zeta. destruct (starts_with [SP] l).
  - eapply so_ok; [apply so_take_context|]. destruct (take_context _ _ _ _ _ _) as [d' c']. apply so_bind; [apply IH|].
    intros [ds r]; apply so_refl.
  - eapply so_ok; [apply so_take_removed|]. destruct (take_removed _ _ _ _ _ _) as [d1 c1].
    eapply so_ok; [apply so_take_added|]. destruct (take_added _ _ _ _ _ _) as [d2 c2].
    apply so_bind; [apply so_refl|intros d']. apply so_bind; [apply IH|]. intros [ds r]; apply so_refl.
Qed.
Lemma so_hunk_side a k : same_or_over (hunk_side_int a k) (Ok (hunk_side a k)).
Proof.
  unfold hunk_side_int, hunk_side. destruct k; [apply so_refl|]. destruct (to_int_opt _) as [z|]; [|apply so_refl].
  destruct (Z.eqb z 0); [apply so_int|]; apply so_refl.
Qed.
Lemma so_unified_hunk_body c ls m : same_or_over (unified_hunk_body_int c ls m) (unified_hunk_body c ls m).
Proof.
  unfold unified_hunk_body_int, unified_hunk_body.
  eapply so_ok; [apply so_hunk_side|]. destruct (hunk_side _ _) as [[a ca]|]; [|apply so_refl].
  eapply so_ok; [apply so_hunk_side|]. destruct (hunk_side _ _) as [[b cb]|]; [|apply so_refl].
  apply so_bind; [apply so_unified_body|]. intros [ds r]; apply so_refl.
Qed.
Lemma so_unified_hunks fuel : forall ls m, same_or_over (unified_hunks_int fuel ls m) (unified_hunks fuel ls m).
Proof.
  induction fuel as [|fuel IH]; intros ls m; [apply so_refl|]. cbn [unified_hunks_int unified_hunks].
  destruct (unified_hunk_header_at ls) as [[c ls']|]; [|apply so_refl].
  apply so_bind; [apply so_unified_hunk_body|]. intros [m' l']. apply IH.
Qed.
Lemma so_context_body fuel : forall a b old new, same_or_over (context_body_loop_int fuel a b old new) (context_body_loop fuel a b old new).
Proof.
  induction fuel as [|fuel IH]; intros a b old new; [apply so_refl|]. cbn [context_body_loop_int context_body_loop].
  assert (X : same_or_over
          (if starts_matching context_removed old then
            let '(ts, old) := take_matching context_removed old in
            do a' <- int_of (a + Z.of_nat (length ts));
            do d <- determine_inline (with_texts ts [] (new_diff a b Delete));
            do ds <- context_body_loop_int fuel a' b old new;
            Ok (d :: ds)
          else if starts_matching context_added new then
            let '(ts, new) := take_matching context_added new in
            do b' <- int_of (b + Z.of_nat (length ts));
            do d <- determine_inline (with_texts [] ts (new_diff a b Insert));
            do ds <- context_body_loop_int fuel a b' old new;
            Ok (d :: ds)
          else if (end_or_context old && end_or_context new)%bool then
            let '(ts, old, new) := take_both (length old + length new) old new in
            do a' <- int_of (a + Z.of_nat (length ts));
            do b' <- int_of (b + Z.of_nat (length ts));
            do d <- determine_inline (with_texts ts ts (new_diff a b Unchanged));
            do ds <- context_body_loop_int fuel a' b' old new;
            Ok (d :: ds)
          else if (starts_matching context_changed old || starts_matching context_changed new)%bool then
            let '(ts1, old) := take_matching context_changed old in
            let '(ts2, new) := take_matching context_changed new in
            do a' <- int_of (a + Z.of_nat (length ts1));
            do b' <- int_of (b + Z.of_nat (length ts2));
            do d <- determine_inline (with_texts ts1 ts2 (new_diff a b Change));
            do ds <- context_body_loop_int fuel a' b' old new;
            Ok (d :: ds)
          else Ok [])
          (if starts_matching context_removed old then
            let '(ts, old) := take_matching context_removed old in
            do d <- determine_inline (with_texts ts [] (new_diff a b Delete));
            do ds <- context_body_loop fuel (a + Z.of_nat (length ts)) b old new;
            Ok (d :: ds)
          else if starts_matching context_added new then
            let '(ts, new) := take_matching context_added new in
            do d <- determine_inline (with_texts [] ts (new_diff a b Insert));
            do ds <- context_body_loop fuel a (b + Z.of_nat (length ts)) old new;
            Ok (d :: ds)
          else if (end_or_context old && end_or_context new)%bool then
            let '(ts, old, new) := take_both (length old + length new) old new in
            do d <- determine_inline (with_texts ts ts (new_diff a b Unchanged));
            do ds <- context_body_loop fuel (a + Z.of_nat (length ts)) (b + Z.of_nat (length ts)) old new;
            Ok (d :: ds)
          else if (starts_matching context_changed old || starts_matching context_changed new)%bool then
            let '(ts1, old) := take_matching context_changed old in
            let '(ts2, new) := take_matching context_changed new in
            do d <- determine_inline (with_texts ts1 ts2 (new_diff a b Change));
            do ds <- context_body_loop fuel (a + Z.of_nat (length ts1)) (b + Z.of_nat (length ts2)) old new;
            Ok (d :: ds)
          else Ok [])).
  { destruct (starts_matching context_removed old).
    { destruct (take_matching _ _) as [ts o]. apply so_int. apply so_bind; [apply so_refl|intros d]. apply so_bind; [apply IH|intros ds; apply so_refl]. }
    destruct (starts_matching context_added new).
    { destruct (take_matching _ _) as [ts o]. apply so_int. apply so_bind; [apply so_refl|intros d]. apply so_bind; [apply IH|intros ds; apply so_refl]. }
    destruct (_ && _)%bool.
    { destruct (take_both _ _ _) as [[ts o] n]. do 2 apply so_int. apply so_bind; [apply so_refl|intros d]. apply so_bind; [apply IH|intros ds; apply so_refl]. }
    destruct (_ || _)%bool; [|apply so_refl].
    destruct (take_matching context_changed old) as [ts1 o]. destruct (take_matching context_changed new) as [ts2 n].
    do 2 apply so_int. apply so_bind; [apply so_refl|intros d]. apply so_bind; [apply IH|intros ds; apply so_refl]. }
  destruct old; [destruct new; [apply so_refl|]|]; exact X.
Qed.
Lemma so_context_hunk_body c1 c2 ls m : same_or_over (context_hunk_body_int c1 c2 ls m) (context_hunk_body c1 c2 ls m).
Proof.
  unfold context_hunk_body_int, context_hunk_body. destruct (take_context_lines ls) as [old r]. destruct r as [|l r]; [apply so_refl|].
  destruct (full_match context_hunk_header3 l) as [c3|]; [|apply so_refl]. destruct (take_context_lines r) as [new rest].
  cbv zeta. apply so_bind; [apply so_context_body|]. intros ds; apply so_refl.
Qed.
Lemma so_context_hunks fuel : forall ls m, same_or_over (context_hunks_int fuel ls m) (context_hunks fuel ls m).
Proof.
  induction fuel as [|fuel IH]; intros ls m; [apply so_refl|]. cbn [context_hunks_int context_hunks].
  destruct (context_hunk_header_at ls) as [[[c1 c2]|] ls']; [|apply so_refl].
  apply so_bind; [apply so_context_hunk_body|]. intros [m' l']. apply IH.
Qed.
Lemma so_files head h1 h2 header : (forall ls m, same_or_over (h1 ls m) (h2 ls m)) ->
  forall fuel ls ms bad, same_or_over (files head h1 header fuel ls ms bad) (files head h2 header fuel ls ms bad).
Proof.
  intros H. induction fuel as [|fuel IH]; intros ls ms bad; [apply so_refl|]. cbn [files].
  apply so_bind; [apply so_refl|]. intros [[m|] l]; [|apply so_refl]. apply so_bind; [apply H|]. intros [m' l']. apply IH.
Qed.
Lemma so_base_parse sort g lines : same_or_over (base_parse_int sort g lines) (base_parse sort g lines).
Proof.
  unfold base_parse_int, base_parse. destruct (determine_format g lines); try apply so_refl.
  - apply so_bind; [|intros [ms b]; apply so_refl]. apply so_bind; [|intros [[ms b] r]; apply so_refl].
    apply so_files. intros ls m. apply so_context_hunks.
  - apply so_bind; [|intros [ms b]; apply so_refl]. apply so_bind; [|intros [[ms b] r]; apply so_refl].
    apply so_files. intros ls m. apply so_unified_hunks.
Qed.
Lemma so_clean ls : forall done n, same_or_over (clean_loop_int done ls n) (clean_loop done ls n).
Proof.
  induction ls as [|l ls IH]; intros done n; cbn [clean_loop_int clean_loop]; [apply so_refl|].
  destruct (starts_with _ _); [|apply IH]. destruct done; [apply so_refl|]. apply so_int, IH.
Qed.
Lemma so_parse sort lines : same_or_over (parse_int sort lines) (parse sort lines).
Proof.
  unfold parse_int, parse. cbv zeta. apply so_bind; [apply so_clean|]. intros [ls n].
  apply so_bind; [apply so_base_parse|]. intros [ms b]; apply so_refl.
Qed.

(** * No overflow when there is room *)
Definition room (n z : Z) : Prop := 0 <= z /\ z + n <= greatest.
Definition deep (n k : Z) : Prop := - greatest <= k - n /\ k <= greatest.
Lemma int_fits {A} z (f : Z -> res A) : - greatest - 1 <= z <= greatest -> bind (int_of z) f = f z.
Proof. intros H. unfold int_of, in_int. replace (_ && _)%bool with true; [reflexivity|]. symmetry. apply andb_true_iff. unfold INT_MAX, greatest in *. lia. Qed.

Record roomy (c : ucursor) : Prop := {
  ry_a : room (Z.of_nat (length (uc_rest c))) (uc_a c);
  ry_b : room (Z.of_nat (length (uc_rest c))) (uc_b c);
  ry_ca : deep (Z.of_nat (length (uc_rest c))) (uc_ca c);
  ry_cb : deep (Z.of_nat (length (uc_rest c))) (uc_cb c) }.
Ltac roomy := unfold room, deep, greatest in *; cbn [length uc_rest uc_a uc_b uc_ca uc_cb] in *; repeat split; lia.
Lemma fit_context ls : forall a b ca cb d, roomy (mk_uc ls a b ca cb) ->
  take_context_int ls a b ca cb d = Ok (take_context ls a b ca cb d) /\ roomy (snd (take_context ls a b ca cb d)).
Proof.
  induction ls as [|l ls IH]; intros a b ca cb d R; cbn [take_context_int take_context]; [now split|].
  destruct (_ && _)%bool; [|now split]. destruct R as [R1 R2 R3 R4].
  rewrite !int_fits by roomy. apply IH. split; roomy.
Qed.
Lemma fit_removed ls : forall a b ca cb d, roomy (mk_uc ls a b ca cb) ->
  take_removed_int ls a b ca cb d = Ok (take_removed ls a b ca cb d) /\ roomy (snd (take_removed ls a b ca cb d)).
Proof.
  induction ls as [|l ls IH]; intros a b ca cb d R; cbn [take_removed_int take_removed]; [now split|].
  destruct (_ && _)%bool; [|now split]. destruct R as [R1 R2 R3 R4].
  rewrite !int_fits by roomy. apply IH. split; roomy.
Qed.
Lemma fit_added ls : forall a b ca cb d, roomy (mk_uc ls a b ca cb) ->
  take_added_int ls a b ca cb d = Ok (take_added ls a b ca cb d) /\ roomy (snd (take_added ls a b ca cb d)).
Proof.
  induction ls as [|l ls IH]; intros a b ca cb d R; cbn [take_added_int take_added]; [now split|].
  destruct (_ && _)%bool; [|now split]. destruct R as [R1 R2 R3 R4].
  rewrite !int_fits by roomy. apply IH. split; roomy.
Qed.
Lemma uc_eta c : mk_uc (uc_rest c) (uc_a c) (uc_b c) (uc_ca c) (uc_cb c) = c. Proof. now destruct c. Qed.
Lemma fit_unified_body fuel : forall c, roomy c -> unified_body_loop_int fuel c = unified_body_loop fuel c.
Proof.
  induction fuel as [|fuel IH]; intros c R; [reflexivity|]. cbn [unified_body_loop_int unified_body_loop].
  destruct (uc_rest c) as [|l ls] eqn:E; [reflexivity|]. rewrite <- E. rewrite <- (uc_eta c) in R.
  destruct (matches_unified_hunk_line l); [|reflexivity|reflexivity]. cbn [bind]. destruct (_ && _)%bool; [|reflexivity].
  destruct (starts_with [SP] l).
  - destruct (fit_context _ _ _ _ _ (new_diff (uc_a c) (uc_b c) Unchanged) R) as [-> R2]. cbn [bind].
    destruct (take_context _ _ _ _ _ _) as [d' c']. cbn [snd] in R2. now rewrite IH.
  - destruct (fit_removed _ _ _ _ _ (new_diff (uc_a c) (uc_b c) Unchanged) R) as [-> R2]. cbn [bind].
    destruct (take_removed _ _ _ _ _ _) as [d1 c1]. cbn [snd] in R2. rewrite <- (uc_eta c1) in R2.
    destruct (fit_added _ _ _ _ _ d1 R2) as [-> R3]. cbn [bind].
    destruct (take_added _ _ _ _ _ _) as [d2 c2]. cbn [snd] in R3. now rewrite IH.
Qed.

Definition modest_part (n : nat) (ls : list str) : Prop :=
  (length ls <= n)%nat /\ forall l a, In l ls -> header_number a l -> forallb is_digit a = true -> digits_value 0 a + Z.of_nat n <= greatest.
Lemma part_suffix n a b : suffix a b -> modest_part n b -> modest_part n a.
Proof.
  intros [p ->] [H1 H2]. split; [rewrite app_length in H1; lia|]. intros l x I. apply H2. apply in_or_app. auto.
Qed.
Lemma digits_nonneg s : forall acc, forallb is_digit s = true -> 0 <= acc -> 0 <= digits_value acc s.
Proof.
  induction s as [|c s IH]; intros acc D H; cbn [digits_value]; [exact H|]. cbn [forallb] in D. apply andb_true_iff in D as [D1 D2].
  apply IH; [exact D2|]. unfold is_digit in D1. apply andb_true_iff in D1 as [D1 _]. apply N.leb_le in D1. lia.
Qed.
Lemma to_int_room s n : (forallb is_digit s = true -> digits_value 0 s + n <= greatest) -> 0 <= n <= greatest -> room n (to_int s).
Proof.
  intros H N. unfold to_int. destruct (negb _ && forallb is_digit s)%bool eqn:E; [|unfold room; lia].
  apply andb_true_iff in E as [_ E]. specialize (H E). pose proof (digits_nonneg s 0 E ltac:(lia)).
  destruct (Z.leb _ _); unfold room; lia.
Qed.
Lemma fit_hunk_side num cnt n : room (n + 1) (to_int num) -> 0 <= n <= greatest ->
  hunk_side_int num cnt = Ok (hunk_side num cnt) /\
  match hunk_side num cnt with Some (a, ca) => room n a /\ deep n ca | None => True end.
Proof.
  intros R N. unfold hunk_side_int, hunk_side. destruct cnt as [|x y]; [split; [reflexivity|unfold room, deep, greatest in *; repeat split; lia]|].
  destruct (to_int_opt _) as [k|] eqn:E; [|now split].
  assert (K : 0 <= k <= greatest).
  { unfold to_int_opt in E. destruct (negb _ && forallb is_digit (x :: y))%bool eqn:D; [|discriminate]. apply andb_true_iff in D as [_ D]. pose proof (digits_nonneg (x :: y) 0 D ltac:(lia)).
    destruct (Z.leb _ _) eqn:L; [|discriminate]. apply Z.leb_le in L. assert (EK : digits_value 0 (x :: y) = k) by congruence. rewrite EK in *. unfold greatest. lia. }
  destruct (Z.eqb k 0) eqn:Z0.
  - rewrite int_fits by roomy. split; [reflexivity|]. roomy.
  - cbn [bind]. split; [reflexivity|]. roomy.
Qed.
Lemma digit_string_forallb s : digit_string s -> forallb is_digit s = true.
Proof. intros [_ D]. exact D. Qed.

Lemma greatest_pos : 0 < greatest. Proof. reflexivity. Qed.
(** A header number of the first of the remaining lines leaves room for the others, and one more. *)
Lemma number_room n l ls a : modest_part n (l :: ls) -> header_number a l -> Z.of_nat n <= greatest -> room (Z.of_nat (length ls) + 1) (to_int a).
Proof.
  intros [L M] H G. cbn [length] in L. apply to_int_room.
  - intros D. specialize (M l a (or_introl eq_refl) H D). lia.
  - lia.
Qed.
Lemma fit_unified_hunks n (G : Z.of_nat n <= greatest) fuel : forall ls m, modest_part n ls -> unified_hunks_int fuel ls m = unified_hunks fuel ls m.
Proof.
  induction fuel as [|fuel IH]; intros ls m M; [reflexivity|]. cbn [unified_hunks_int unified_hunks].
  destruct (unified_hunk_header_at ls) as [[c ls']|] eqn:E; [|reflexivity].
  unfold unified_hunk_header_at in E. destruct ls as [|l ls]; [discriminate|].
  destruct (full_match unified_hunk_header l) as [c'|] eqn:F; [|discriminate]. injection E as -> ->.
  apply unified_hunk_header_inv in F as (n1 & k1 & n2 & k2 & sep & f & EL & D1 & D2 & _ & _ & _ & _ & C1 & C4 & _).
  assert (R1 : room (Z.of_nat (length ls') + 1) (to_int n1)).
  { apply (number_room n l); [exact M| |exact G]. exists [], (k1 ++ lit " +" ++ (n2 ++ k2) ++ lit " @@" ++ sep ++ f ++ [NL]).
    left. rewrite EL. now rewrite <- !app_assoc. }
  assert (R2 : room (Z.of_nat (length ls') + 1) (to_int n2)).
  { apply (number_room n l); [exact M| |exact G]. exists (n1 ++ k1), (k2 ++ lit " @@" ++ sep ++ f ++ [NL]).
    right; left. rewrite EL. now rewrite <- !app_assoc. }
  assert (N : 0 <= Z.of_nat (length ls') <= greatest) by (destruct M as [M _]; cbn [length] in M; lia).
  assert (B : unified_hunk_body_int c ls' m = unified_hunk_body c ls' m).
  { unfold unified_hunk_body_int, unified_hunk_body. rewrite C1, C4.
    destruct (fit_hunk_side n1 (captured 3 c) _ R1 N) as [-> S1]. cbn [bind].
    destruct (hunk_side n1 _) as [[a ca]|]; [|reflexivity].
    destruct (fit_hunk_side n2 (captured 6 c) _ R2 N) as [-> S2]. cbn [bind].
    destruct (hunk_side n2 _) as [[b cb]|]; [|reflexivity].
    rewrite fit_unified_body; [reflexivity|]. split; cbn [uc_rest uc_a uc_b uc_ca uc_cb]; tauto. }
  rewrite B. destruct (unified_hunk_body c ls' m) as [[m1 l1]| |] eqn:E1; [|reflexivity|reflexivity]. cbn [bind]. apply IH.
  apply (part_suffix n l1 (l :: ls')); [|exact M]. eapply suffix_trans; [|apply suffix_cons].
  clear - E1. unfold unified_hunk_body in E1. destruct (hunk_side _ _) as [[a ca]|]; [|injection E1 as <- <-; apply suffix_refl].
  destruct (hunk_side _ _) as [[b cb]|]; [|injection E1 as <- <-; apply suffix_refl].
  destruct (unified_body_loop _ _) as [[ds rest]| |] eqn:EL; try discriminate. cbn [bind] in E1.
  rewrite add_parsed_hunk_ok in E1. injection E1 as <- <-.
  apply unified_body_ok in EL as (R & _). cbn [uc_rest] in R. exists (concat (map printed ds)). exact R.
Qed.

(** Context. *)
Lemma take_both_length fuel : forall old new ts o n, take_both fuel old new = (ts, o, n) ->
  (length ts + length o + length n <= length old + length new)%nat.
Proof.
  induction fuel as [|fuel IH]; intros old new ts o n; cbn [take_both].
  - intros H; injection H as <- <- <-. cbn. lia.
  - destruct (_ && _)%bool eqn:C; [|intros H; injection H as <- <- <-; cbn; lia].
    destruct (take_both fuel (tl old) (tl new)) as [[t o1] n1] eqn:E. intros H; injection H as <- <- <-.
    apply IH in E. apply andb_true_iff in C as [_ C]. destruct old, new; cbn in *; try discriminate; lia.
Qed.
Lemma fit_context_body fuel : forall a b old new,
  room (Z.of_nat (length old + length new)) a -> room (Z.of_nat (length old + length new)) b ->
  context_body_loop_int fuel a b old new = context_body_loop fuel a b old new.
Proof.
  induction fuel as [|fuel IH]; intros a b old new R1 R2; [reflexivity|]. cbn [context_body_loop_int context_body_loop].
  destruct (starts_matching context_removed old) eqn:S1.
  { destruct (take_matching _ _) as [ts o] eqn:T. apply take_matching_length in T as [T _].
    rewrite int_fits by roomy. rewrite IH by roomy. reflexivity. }
  destruct (starts_matching context_added new) eqn:S2.
  { destruct (take_matching _ _) as [ts o] eqn:T. apply take_matching_length in T as [T _].
    rewrite int_fits by roomy. rewrite IH by roomy. reflexivity. }
  destruct (end_or_context old && end_or_context new)%bool eqn:S3.
  { destruct (take_both _ _ _) as [[ts o] n] eqn:T. apply take_both_length in T.
    rewrite !int_fits by roomy. rewrite IH by roomy. reflexivity. }
  destruct (_ || _)%bool; [|reflexivity].
  destruct (take_matching context_changed old) as [ts1 o] eqn:T1. destruct (take_matching context_changed new) as [ts2 n] eqn:T2.
  apply take_matching_length in T1 as [T1 _]. apply take_matching_length in T2 as [T2 _].
  rewrite !int_fits by roomy. rewrite IH by roomy. reflexivity.
Qed.
Lemma header2_number l c : full_match context_hunk_header2 l = Some c -> header_number (captured 1 c) l.
Proof.
  intros H. unfold full_match, context_hunk_header2 in H. inv_match H. rewrite m_seq in H. inv_match H.
  rewrite m_seq in H. apply i_text in H as (? & -> & H). rewrite m_seq, m_group in H.
  apply i_plus in H as (? & ? & -> & _ & _ & H). rewrite group_text, m_seq in H. apply i_text in H as (? & -> & H). rewrite m_seq in H.
  inv_match H. inv_match H. apply end_inv in H as [-> ->]. exists []. eexists. do 2 right. left. reflexivity.
Qed.
Lemma header3_number l c : full_match context_hunk_header3 l = Some c -> header_number (captured 1 c) l.
Proof.
  intros H. unfold full_match, context_hunk_header3 in H. inv_match H. rewrite m_seq in H. inv_match H.
  rewrite m_seq in H. apply i_text in H as (? & -> & H). rewrite m_seq, m_group in H.
  apply i_plus in H as (? & ? & -> & _ & _ & H). rewrite group_text, m_seq in H. apply i_text in H as (? & -> & H). 
  inv_match H. apply end_inv in H as [-> ->]. exists []. eexists. do 3 right. reflexivity.
Qed.

Lemma fit_context_hunks n (G : Z.of_nat n <= greatest) fuel : forall ls m, modest_part n ls -> context_hunks_int fuel ls m = context_hunks fuel ls m.
Proof.
  induction fuel as [|fuel IH]; intros ls m M; [reflexivity|]. cbn [context_hunks_int context_hunks].
  destruct (context_hunk_header_at ls) as [[[c1 c2]|] ls2] eqn:E; [|reflexivity].
  unfold context_hunk_header_at in E. destruct ls as [|l ls]; [discriminate|].
  destruct (full_match context_hunk_header1 l) as [c1'|]; [|discriminate]. destruct ls as [|l2 ls]; [discriminate|].
  destruct (full_match context_hunk_header2 l2) as [c2'|] eqn:F2; [|discriminate]. injection E as -> -> ->.
  apply header2_number in F2.
  assert (R2 : room (Z.of_nat (length ls2) + 1) (to_int (captured 1 c2))).
  { apply (number_room n l2); [|exact F2|exact G]. apply (part_suffix n _ (l :: l2 :: ls2)); [apply suffix_cons|exact M]. }
  assert (ML : modest_part n ls2) by (apply (part_suffix n _ (l :: l2 :: ls2)); [exists [l; l2]; reflexivity|exact M]).
  assert (B : context_hunk_body_int c1 c2 ls2 m = context_hunk_body c1 c2 ls2 m).
  { unfold context_hunk_body_int, context_hunk_body. destruct (take_context_lines ls2) as [old r] eqn:T1.
    apply take_context_lines_ok in T1. destruct r as [|l3 r]; [reflexivity|].
    destruct (full_match context_hunk_header3 l3) as [c3|] eqn:F3; [|reflexivity]. apply header3_number in F3.
    destruct (take_context_lines r) as [new rest] eqn:T2. apply take_context_lines_ok in T2. cbv zeta.
    rewrite fit_context_body; [reflexivity| |].
    - rewrite T1, T2 in R2. rewrite app_length in R2. cbn [length] in R2. rewrite app_length in R2. roomy.
    - destruct ML as [L ML]. assert (H : room (Z.of_nat n) (to_int (captured 1 c3))).
      { apply to_int_room; [|lia]. intros D. eapply ML; [|exact F3|exact D]. rewrite T1. apply in_or_app. right. now left. }
      rewrite T1, T2 in L. rewrite app_length in L. cbn [length] in L. rewrite app_length in L. roomy. }
  rewrite B. destruct (context_hunk_body c1 c2 ls2 m) as [[m1 l1]| |] eqn:E1; [|reflexivity|reflexivity]. cbn [bind]. apply IH.
  apply (part_suffix n l1 ls2); [|exact ML].
  clear - E1. unfold context_hunk_body in E1. destruct (take_context_lines ls2) as [old r] eqn:T1.
  apply take_context_lines_ok in T1 as ->. destruct r as [|l3 r]; [discriminate|].
  destruct (full_match context_hunk_header3 l3) as [c3|]; [|injection E1 as <- <-; exists old; reflexivity].
  destruct (take_context_lines r) as [new rest] eqn:T2. apply take_context_lines_ok in T2 as ->. cbv zeta in E1.
  destruct (context_body_loop _ _ _ _ _); try discriminate. cbn [bind] in E1.
  rewrite add_parsed_hunk_ok in E1. cbn [bind] in E1. injection E1 as <- <-. exists (old ++ l3 :: new). now rewrite <- app_assoc.
Qed.

(** Whole files. *)
Definition leaves_suffix (head : list str -> res (option dmodel * list str)) : Prop :=
  forall ls m ls', head ls = Ok (Some m, ls') -> suffix ls' ls.
Lemma perforce_suffix : leaves_suffix (fun ls => Ok (perforce_diff_header ls)).
Proof.
  intros ls. induction ls as [|l ls IH]; intros m ls'; cbn [perforce_diff_header]; [discriminate|].
  destruct (full_match perforce_header l); [intros H; injection H as _ <-; apply suffix_cons|].
  intros H. apply IH in H. eapply suffix_trans; [exact H|apply suffix_cons].
Qed.
Lemma unified_head_suffix g : leaves_suffix (unified_head_of g).
Proof.
  assert (U : leaves_suffix unified_diff_header).
  { intros ls. induction ls as [|l ls IH]; intros m ls'; cbn [unified_diff_header]; [discriminate|].
    destruct (full_match unified_header1 l) as [c|] eqn:E.
    - destruct ls as [|l2 ls]; [discriminate|]. destruct (full_match unified_header2 l2); [|discriminate].
      intros H; injection H as _ <-. exists [l; l2]. reflexivity.
    - intros H. apply IH in H. eapply suffix_trans; [exact H|apply suffix_cons]. }
  destruct g; [exact U|exact U|exact perforce_suffix].
Qed.
Lemma context_head_suffix g : leaves_suffix (context_head_of g).
Proof.
  assert (U : forall h1 h2, leaves_suffix (context_diff_header h1 h2)).
  { intros h1 h2 ls. induction ls as [|l ls IH]; intros m ls'; cbn [context_diff_header]; [discriminate|].
    destruct (full_match h1 l) as [c|] eqn:E.
    - destruct ls as [|l2 ls]; [discriminate|]. destruct (full_match h2 l2); [|discriminate].
      intros H; injection H as _ <-. exists [l; l2]. reflexivity.
    - intros H. apply IH in H. eapply suffix_trans; [exact H|apply suffix_cons]. }
  destruct g; cbn [context_head_of]; [apply U|apply U|exact perforce_suffix].
Qed.
Lemma unified_hunks_suffix fuel : forall ls m m' ls', unified_hunks fuel ls m = Ok (m', ls') -> suffix ls' ls.
Proof.
  induction fuel as [|fuel IH]; intros ls m m' ls'; [discriminate|]. cbn [unified_hunks].
  unfold unified_hunk_header_at. destruct ls as [|l ls]; [intros H; injection H as <- <-; apply suffix_refl|].
  destruct (full_match unified_hunk_header l) as [c|]; [|intros H; injection H as <- <-; apply suffix_refl].
  destruct (unified_hunk_body c ls m) as [[m1 l1]| |] eqn:E1; [|discriminate|discriminate]. cbn [bind]. intros H. apply IH in H.
  eapply suffix_trans; [exact H|]. eapply suffix_trans; [|apply suffix_cons].
  clear - E1. unfold unified_hunk_body in E1. destruct (hunk_side _ _) as [[a ca]|]; [|injection E1 as <- <-; apply suffix_refl].
  destruct (hunk_side _ _) as [[b cb]|]; [|injection E1 as <- <-; apply suffix_refl].
  destruct (unified_body_loop _ _) as [[ds rest]| |] eqn:EL; try discriminate. cbn [bind] in E1.
  rewrite add_parsed_hunk_ok in E1. injection E1 as <- <-.
  apply unified_body_ok in EL as (R & _). cbn [uc_rest] in R. exists (concat (map printed ds)). exact R.
Qed.
Lemma context_hunks_suffix fuel : forall ls m m' ls', context_hunks fuel ls m = Ok (m', ls') -> suffix ls' ls.
Proof.
  induction fuel as [|fuel IH]; intros ls m m' ls'; [discriminate|]. cbn [context_hunks]. unfold context_hunk_header_at.
  destruct ls as [|l ls]; [intros H; injection H as <- <-; apply suffix_refl|].
  destruct (full_match context_hunk_header1 l) as [c1|]; [|intros H; injection H as <- <-; apply suffix_refl].
  destruct ls as [|l2 ls]; [intros H; injection H as <- <-; apply suffix_cons|].
  destruct (full_match context_hunk_header2 l2) as [c2|]; [|intros H; injection H as <- <-; apply suffix_cons].
  destruct (context_hunk_body c1 c2 ls m) as [[m1 l1]| |] eqn:E1; [|discriminate|discriminate]. cbn [bind]. intros H. apply IH in H.
  eapply suffix_trans; [exact H|]. apply (suffix_trans _ ls); [|exists [l; l2]; reflexivity].
  clear - E1. unfold context_hunk_body in E1. destruct (take_context_lines ls) as [old r] eqn:T1.
  apply take_context_lines_ok in T1 as ->. destruct r as [|l3 r]; [discriminate|].
  destruct (full_match context_hunk_header3 l3) as [c3|]; [|injection E1 as <- <-; exists old; reflexivity].
  destruct (take_context_lines r) as [new rest] eqn:T2. apply take_context_lines_ok in T2 as ->. cbv zeta in E1.
  destruct (context_body_loop _ _ _ _ _); try discriminate. cbn [bind] in E1.
  rewrite add_parsed_hunk_ok in E1. cbn [bind] in E1. injection E1 as <- <-. exists (old ++ l3 :: new). now rewrite <- app_assoc.
Qed.
Lemma fit_files n head h1 h2 header : leaves_suffix head ->
  (forall ls m, modest_part n ls -> h1 ls m = h2 ls m) -> (forall ls m m' ls', h2 ls m = Ok (m', ls') -> suffix ls' ls) ->
  forall fuel ls ms bad, modest_part n ls -> files head h1 header fuel ls ms bad = files head h2 header fuel ls ms bad.
Proof.
  intros HH HE HS. induction fuel as [|fuel IH]; intros ls ms bad M; [reflexivity|]. cbn [files].
  destruct (head ls) as [[[m|] l1]| |] eqn:E; try reflexivity. cbn [bind]. apply HH in E.
  pose proof (part_suffix n _ _ E M) as M1. rewrite HE by exact M1.
  destruct (h2 l1 m) as [[m2 l2]| |] eqn:E2; [|reflexivity|reflexivity]. cbn [bind]. apply IH. apply HS in E2.
  exact (part_suffix n _ _ E2 M1).
Qed.
Lemma fit_base_parse n sort g lines : Z.of_nat n <= greatest -> modest_part n lines -> base_parse_int sort g lines = base_parse sort g lines.
Proof.
  intros G M. unfold base_parse_int, base_parse. destruct (determine_format g lines); try reflexivity.
  - unfold parse_context_int, parse_context.
    erewrite (fit_files n _ (hunk_fuel context_hunks_int) (hunk_fuel context_hunks)); [reflexivity| | | |exact M].
    + apply context_head_suffix.
    + intros ls m. apply fit_context_hunks, G.
    + intros ls m m' ls'. apply context_hunks_suffix.
  - unfold parse_unified_int, parse_unified.
    erewrite (fit_files n _ (hunk_fuel unified_hunks_int) (hunk_fuel unified_hunks)); [reflexivity| | | |exact M].
    + apply unified_head_suffix.
    + intros ls m. apply fit_unified_hunks, G.
    + intros ls m m' ls'. apply unified_hunks_suffix.
Qed.
Lemma fit_clean ls : forall done k, 0 <= k -> k + Z.of_nat (length ls) <= greatest -> clean_loop_int done ls k = clean_loop done ls k.
Proof.
  induction ls as [|l ls IH]; intros done k K L; cbn [clean_loop_int clean_loop]; [reflexivity|]. cbn [length] in L.
  destruct (starts_with _ _); [|apply IH; lia]. destruct done; [reflexivity|].
  rewrite int_fits by (unfold greatest in *; lia). apply IH; lia.
Qed.
(** Each line left by the cleaning is the beginning of a line of the text. *)
Lemma clean_beginnings ls : forall done k out k', clean_loop done ls k = Ok (out, k') ->
  (length out <= length done + length ls)%nat /\
  forall x, In x out -> exists l y, (In l done \/ In l ls) /\ l = x ++ y.
Proof.
  induction ls as [|l ls IH]; intros done k out k'; cbn [clean_loop].
  - intros H; injection H as <- <-. split; [rewrite rev_length; lia|]. intros x I. apply in_rev in I. exists x, []. rewrite app_nil_r. auto.
  - destruct (starts_with _ _).
    + destruct done as [|p done]; [discriminate|]. intros H. apply IH in H as [L H]. cbn [length] in *. split; [lia|].
      intros x I. destruct (H x I) as (l0 & y & [[<-|I0]|I0] & E).
      * unfold truncate_at_newline in E. destruct (index_of NL p) as [i|].
        -- exists p, (y ++ skipn i p). split; [left; now left|]. rewrite app_assoc, <- E. symmetry. apply firstn_skipn.
        -- destruct x; [|discriminate]. exists p, p. split; [left; now left|reflexivity].
      * exists l0, y. split; [left; now right|exact E].
      * exists l0, y. split; [right; now right|exact E].
    + intros H. apply IH in H as [L H]. cbn [length] in *. split; [lia|].
      intros x I. destruct (H x I) as (l0 & y & [[<-|I0]|I0] & E).
      * exists l, y. split; [right; now left|exact E].
      * exists l0, y. split; [left; exact I0|exact E].
      * exists l0, y. split; [right; now right|exact E].
Qed.
Lemma header_number_longer a x y : header_number a x -> header_number a (x ++ y).
Proof.
  intros (p & q & H). exists p, (q ++ y). destruct H as [->|[->|[->| ->]]]; rewrite <- ?app_assoc; tauto.
Qed.
Lemma fit_parse sort lines : modest lines -> parse_int sort lines = parse sort lines.
Proof.
  intros [L M]. unfold parse_int, parse. cbv zeta. rewrite fit_clean by lia. fold (clean_up_crap lines).
  destruct (clean_up_crap lines) as [[ls k]| |] eqn:E; [|reflexivity|reflexivity]. cbn [bind].
  apply clean_beginnings in E as [LL B]. rewrite (fit_base_parse (length lines)); [reflexivity|exact L|].
  split; [cbn [length] in LL; lia|]. intros x a I H D. destruct (B x I) as (l & y & [[]|I2] & ->).
  eapply M; [exact I2| |exact D]. now apply header_number_longer.
Qed.
