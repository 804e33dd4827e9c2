(** What holds of the models of any input, in all formats. *)
From Coq Require Import String Permutation.
From Verif Require Import Base QtStr Lev Diff Regex Patterns Parser SpecEdit SpecInline SpecPatch SpecParse
  PRegex PLev PHistory PEditLines PParse PUnified PHeaders PFileHeads PUnifiedDoc PFuel.
Local Open Scope Z_scope.

Definition tidy (p : hunk * list difference) : Prop :=
  h_type (fst p) = HNormal /\ contiguous (h_src (fst p)) (h_dst (fst p)) (snd p) /\ Forall pristine (snd p).
Definition tidy_model (m : dmodel) : Prop := exists hs, contents m hs /\ Forall tidy hs.

Lemma inline_texts sl dl a b ty d : determine_inline (with_texts sl dl (new_diff a b ty)) = Ok d ->
  d_src d = a /\ d_dst d = b /\ d_track d = a /\ raw d /\ d_type d = ty /\
  lines_of (d_slines d) = sl /\ lines_of (d_dlines d) = dl.
Proof.
  intros H. apply determine_inline_shape in H as (s' & d' & -> & F1 & F2).
  apply same_text_lines in F1. apply same_text_lines in F2. cbn [with_texts set_lines d_slines d_dlines] in *.
  rewrite lines_of_new in F1, F2. repeat split; assumption.
Qed.
Lemma context_body_ok fuel : forall a b old new ds, context_body_loop fuel a b old new = Ok ds ->
  contiguous a b ds /\ Forall raw ds.
Proof.
  assert (C : forall (l : list dstr) ts, lines_of l = ts -> count l = Z.of_nat (length ts)).
  { intros l ts <-. unfold count. now rewrite lines_of_length. }
  induction fuel as [|fuel IH]; intros a b old new ds H; [discriminate|]. cbn [context_body_loop] in H.
  assert (G : match old, new with [], [] => True | _, _ =>
     (if starts_matching context_removed old then
            let '(ts, old) := take_matching context_removed old in
            do d <- determine_inline (with_texts ts [] (new_diff a b Delete));
            do ds <- context_body_loop fuel (a + Z.of_nat (length ts)) b old new;
            Ok (d :: ds)
          else if starts_matching context_added new then
            let '(ts, new) := take_matching context_added new in
            do d <- determine_inline (with_texts [] ts (new_diff a b Insert));
            do ds <- context_body_loop fuel a (b + Z.of_nat (length ts)) old new;
            Ok (d :: ds)
          else if (end_or_context old && end_or_context new)%bool then
            let '(ts, old, new) := take_both (length old + length new) old new in
            do d <- determine_inline (with_texts ts ts (new_diff a b Unchanged));
            do ds <- context_body_loop fuel (a + Z.of_nat (length ts)) (b + Z.of_nat (length ts)) old new;
            Ok (d :: ds)
          else if (starts_matching context_changed old || starts_matching context_changed new)%bool then
            let '(ts1, old) := take_matching context_changed old in
            let '(ts2, new) := take_matching context_changed new in
            do d <- determine_inline (with_texts ts1 ts2 (new_diff a b Change));
            do ds <- context_body_loop fuel (a + Z.of_nat (length ts1)) (b + Z.of_nat (length ts2)) old new;
            Ok (d :: ds)
          else Ok []) = Ok ds end).
  { destruct old; [destruct new|]; [exact I|exact H|exact H]. }
  assert (D : (old = [] /\ new = []) \/
     (if starts_matching context_removed old then
            let '(ts, old) := take_matching context_removed old in
            do d <- determine_inline (with_texts ts [] (new_diff a b Delete));
            do ds <- context_body_loop fuel (a + Z.of_nat (length ts)) b old new;
            Ok (d :: ds)
          else if starts_matching context_added new then
            let '(ts, new) := take_matching context_added new in
            do d <- determine_inline (with_texts [] ts (new_diff a b Insert));
            do ds <- context_body_loop fuel a (b + Z.of_nat (length ts)) old new;
            Ok (d :: ds)
          else if (end_or_context old && end_or_context new)%bool then
            let '(ts, old, new) := take_both (length old + length new) old new in
            do d <- determine_inline (with_texts ts ts (new_diff a b Unchanged));
            do ds <- context_body_loop fuel (a + Z.of_nat (length ts)) (b + Z.of_nat (length ts)) old new;
            Ok (d :: ds)
          else if (starts_matching context_changed old || starts_matching context_changed new)%bool then
            let '(ts1, old) := take_matching context_changed old in
            let '(ts2, new) := take_matching context_changed new in
            do d <- determine_inline (with_texts ts1 ts2 (new_diff a b Change));
            do ds <- context_body_loop fuel (a + Z.of_nat (length ts1)) (b + Z.of_nat (length ts2)) old new;
            Ok (d :: ds)
          else Ok []) = Ok ds).
  { destruct old; [destruct new|]; auto. }
  clear G. destruct D as [[-> ->]|D]; [injection H as <-; cbn; auto|]. clear H.
  assert (K : forall sl dl ty d ds' o n, determine_inline (with_texts sl dl (new_diff a b ty)) = Ok d ->
     context_body_loop fuel (a + Z.of_nat (length sl)) (b + Z.of_nat (length dl)) o n = Ok ds' ->
     contiguous a b (d :: ds') /\ Forall raw (d :: ds')).
  { intros sl dl ty d ds' o n E1 E2. apply inline_texts in E1 as (A1 & A2 & A3 & A4 & _ & A5 & A6).
    apply IH in E2 as [B1 B2]. cbn [contiguous]. rewrite (C _ _ A5), (C _ _ A6). auto. }
  destruct (starts_matching context_removed old).
  { destruct (take_matching _ old) as [ts o]. destruct (determine_inline _) as [d| |] eqn:E1; try discriminate. cbn [bind] in D.
    destruct (context_body_loop _ _ _ _ _) as [ds'| |] eqn:E2; try discriminate. injection D as <-.
    eapply K; [exact E1|]. cbn [length Z.of_nat]. rewrite Z.add_0_r. exact E2. }
  destruct (starts_matching context_added new).
  { destruct (take_matching _ new) as [ts o]. destruct (determine_inline _) as [d| |] eqn:E1; try discriminate. cbn [bind] in D.
    destruct (context_body_loop _ _ _ _ _) as [ds'| |] eqn:E2; try discriminate. injection D as <-.
    eapply K; [exact E1|]. cbn [length Z.of_nat]. rewrite Z.add_0_r. exact E2. }
  destruct (_ && _)%bool.
  { destruct (take_both _ old new) as [[ts o] n]. destruct (determine_inline _) as [d| |] eqn:E1; try discriminate. cbn [bind] in D.
    destruct (context_body_loop _ _ _ _ _) as [ds'| |] eqn:E2; try discriminate. injection D as <-.
    eapply K; [exact E1|exact E2]. }
  destruct (_ || _)%bool; [|injection D as <-; cbn; auto].
  destruct (take_matching _ old) as [ts1 o]. destruct (take_matching _ new) as [ts2 n].
  destruct (determine_inline _) as [d| |] eqn:E1; try discriminate. cbn [bind] in D.
  destruct (context_body_loop _ _ _ _ _) as [ds'| |] eqn:E2; try discriminate. injection D as <-.
  eapply K; [exact E1|exact E2].
Qed.
Lemma tidy_add m a b f ds m' : tidy_model m -> contiguous a b ds -> Forall raw ds ->
  add_parsed_hunk m a b f ds = Ok m' -> tidy_model m'.
Proof.
  intros (hs & C & T) D R H. rewrite add_parsed_hunk_ok in H. injection H as <-.
  eexists. split; [apply contents_add; exact C|]. apply Forall_app. split; [exact T|]. constructor; [|constructor].
  repeat split; cbn [fst snd h_src h_dst].
  - now apply linked_contiguous.
  - apply Forall_map. eapply Forall_impl; [|exact R]. exact linked_pristine.
Qed.
Lemma unified_hunks_tidy fuel : forall ls m m' ls', tidy_model m -> unified_hunks fuel ls m = Ok (m', ls') -> tidy_model m'.
Proof.
  induction fuel as [|fuel IH]; intros ls m m' ls' T H; [discriminate|]. cbn [unified_hunks] in H.
  unfold unified_hunk_header_at in H. destruct ls as [|l ls]; [injection H as <- <-; exact T|].
  destruct (full_match unified_hunk_header l) as [c|]; [|injection H as <- <-; exact T].
  destruct (unified_hunk_body c ls m) as [[m1 ls1]| |] eqn:E; try discriminate. cbn [bind] in H.
  apply IH in H; [exact H|]. unfold unified_hunk_body in E.
  destruct (hunk_side _ _) as [[a ca]|]; [|injection E as <- <-; exact T].
  destruct (hunk_side _ _) as [[b cb]|]; [|injection E as <- <-; exact T].
  destruct (unified_body_loop _ _) as [[ds rest]| |] eqn:EL; try discriminate. cbn [bind] in E.
  destruct (add_parsed_hunk _ _ _ _ _) as [m2| |] eqn:EA; try discriminate. injection E as <- <-.
  apply unified_body_ok in EL as (_ & C & _ & R). eapply tidy_add; eauto.
Qed.
Lemma context_hunks_tidy fuel : forall ls m m' ls', tidy_model m -> context_hunks fuel ls m = Ok (m', ls') -> tidy_model m'.
Proof.
  induction fuel as [|fuel IH]; intros ls m m' ls' T H; [discriminate|]. cbn [context_hunks] in H.
  destruct (context_hunk_header_at ls) as [[[c1 c2]|] ls0]; [|injection H as <- <-; exact T].
  destruct (context_hunk_body c1 c2 ls0 m) as [[m1 ls1]| |] eqn:E; try discriminate. cbn [bind] in H.
  apply IH in H; [exact H|]. unfold context_hunk_body in E.
  destruct (take_context_lines ls0) as [old r]. destruct r as [|l r]; [discriminate|].
  destruct (full_match context_hunk_header3 l) as [c3|]; [|injection E as <- <-; exact T].
  destruct (take_context_lines r) as [new rest].
  destruct (context_body_loop _ _ _ _ _) as [ds| |] eqn:EL; try discriminate. cbn [bind] in E.
  destruct (add_parsed_hunk _ _ _ _ _) as [m2| |] eqn:EA; try discriminate. injection E as <- <-.
  apply context_body_ok in EL as (C & R). eapply tidy_add; eauto.
Qed.
Lemma normal_hunks_tidy fuel : forall ls m m' ls', tidy_model m -> normal_hunks fuel ls m = Ok (m', ls') -> tidy_model m'.
Proof.
  induction fuel as [|fuel IH]; intros ls m m' ls' T H; [discriminate|]. cbn [normal_hunks] in H.
  destruct (normal_hunk_header_at ls) as [[[[ty a] b] ls0]|]; [|injection H as <- <-; exact T].
  destruct (normal_hunk_body ty a b ls0 m) as [[m1 ls1]| |] eqn:E; try discriminate. cbn [bind] in H.
  apply IH in H; [exact H|]. unfold normal_hunk_body in E.
  destruct (match ty with Change | Delete => take_matching normal_removed ls0 | _ => ([], ls0) end) as [sl ls2].
  destruct (match match ty with Change => match ls2 with l :: ls' => if has_match normal_divider l then Some ls' else None | [] => None end | _ => Some ls2 end with
     Some ls => match ty with Change | Insert => take_matching normal_added ls | _ => ([], ls) end | None => ([], ls2) end) as [dl ls3].
  destruct (add_parsed_hunk _ _ _ _ _) as [m2| |] eqn:EA; try discriminate. injection E as <- <-.
  eapply tidy_add; [exact T| | |exact EA]; cbn; repeat constructor.
Qed.
Lemma files_tidy head hunks header :
  (forall ls m rest, head ls = Ok (Some m, rest) -> contents m []) ->
  (forall ls m m' rest, tidy_model m -> hunks ls m = Ok (m', rest) -> tidy_model m') ->
  forall fuel ls ms bad ms' bad' rest,
  Forall (fun m => tidy_model m /\ dm_diffs m <> []) ms ->
  files head hunks header fuel ls ms bad = Ok (ms', bad', rest) ->
  Forall (fun m => tidy_model m /\ dm_diffs m <> []) ms'.
Proof.
  intros HH HK. induction fuel as [|fuel IH]; intros ls ms bad ms' bad' rest F H; [discriminate|].
  cbn [files] in H. destruct (head ls) as [[[m|] ls1]| |] eqn:EH; try discriminate; cbn [bind] in H.
  2: { injection H as <- <- <-. exact F. }
  destruct (hunks ls1 m) as [[m2 ls2]| |] eqn:EK; try discriminate. cbn [bind] in H.
  apply IH in H; [exact H|]. unfold append_model.
  destruct (Nat.ltb_spec 0 (length (dm_diffs m2))) as [L|L]; [|exact F].
  apply Forall_app. split; [exact F|]. constructor; [|constructor]. split.
  - eapply HK; [|exact EK]. exists []. split; [|constructor]. eapply HH; eauto.
  - destruct (dm_diffs m2); [cbn in L; lia|discriminate].
Qed.
Lemma unified_head_contents g ls m rest : unified_head_of g ls = Ok (Some m, rest) -> contents m [].
Proof.
  destruct g; cbn.
  - intros H. pose proof (unified_head_ok ls) as K. rewrite H in K. destruct K as (? & ? & _ & _ & _ & K). exact K.
  - intros H. pose proof (unified_head_ok ls) as K. rewrite H in K. destruct K as (? & ? & _ & _ & _ & K). exact K.
  - intros H. injection H as H. pose proof (perforce_head_ok ls) as K. rewrite H in K. destruct K as (? & ? & _ & _ & _ & K). exact K.
Qed.
Lemma context_head_contents g ls m rest : context_head_of g ls = Ok (Some m, rest) -> contents m [].
Proof.
  assert (U : forall h1 h2, context_diff_header h1 h2 ls = Ok (Some m, rest) -> contents m []).
  { intros h1 h2. induction ls as [|l ls IH]; cbn [context_diff_header]; [discriminate|].
    destruct (full_match h1 l) as [c1|]; [|exact IH]. destruct ls as [|l2 ls]; [discriminate|].
    destruct (full_match h2 l2) as [c2|]; [|discriminate]. intros H; injection H as <- _.
    destruct (new_model_named (unescape_path (captured 1 c1)) (unescape_path (captured 1 c2)) _ eq_refl)
        as (_ & _ & _ & _ & [[B1 B2 B3 B4 B6 B7] B5] & _). split; [split|]; assumption. }
  destruct g; cbn [context_head_of]; [apply U|apply U|]. exact (unified_head_contents Perforce ls m rest).
Qed.
Lemma normal_head_contents g ls m rest : normal_head_of g ls = Ok (Some m, rest) -> contents m [].
Proof.
  assert (U : forall cvs, normal_diff_header_search cvs ls = (Some m, rest) -> contents m []).
  { intros cvs. induction ls as [|l ls IH]; cbn [normal_diff_header_search]; [discriminate|].
    destruct (full_match _ l) as [c|]; [|exact IH]. intros H; injection H as <- _.
    destruct cvs; edestruct set_files_named as [_ C]; try reflexivity; exact C. }
  destruct g; cbn [normal_head_of].
  - intros H. injection H as H. now apply (U true).
  - intros H. injection H as H. now apply (U false).
  - exact (unified_head_contents Perforce ls m rest).
Qed.
Definition the_models (o : option (list dmodel)) : list dmodel := match o with Some ms => ms | None => [] end.
Lemma base_parse_tidy sort g lines ms bad :
  (forall l, Permutation (sort l) l) -> base_parse sort g lines = Ok (ms, bad) ->
  Forall (fun m => tidy_model m /\ dm_diffs m <> []) (the_models ms).
Proof.
  intros HP. unfold base_parse.
  assert (S : forall l, Forall (fun m => tidy_model m /\ dm_diffs m <> []) l ->
     Forall (fun m => tidy_model m /\ dm_diffs m <> []) (the_models (match sort l with [] => None | _ => Some (sort l) end))).
  { intros l F. assert (G : Forall (fun m => tidy_model m /\ dm_diffs m <> []) (sort l)).
    { eapply Permutation_Forall; [|exact F]. symmetry. apply HP. }
    destruct (sort l); [constructor|exact G]. }
  destruct (determine_format g lines); try (intros H; injection H as <- <-; constructor).
  - destruct (parse_context g lines) as [[l b]| |] eqn:E; try discriminate. cbn [bind]. intros H; injection H as <- <-.
    apply S. unfold parse_context in E. destruct (files _ _ _ _ _ _ _) as [[[l' b'] r]| |] eqn:EF; try discriminate.
    injection E as <- <-. eapply files_tidy; [| | |exact EF].
    + intros; eapply context_head_contents; eauto.
    + intros; eapply context_hunks_tidy; eauto.
    + constructor.
  - destruct (parse_normal g lines) as [[l b]| |] eqn:E; try discriminate. cbn [bind]. intros H; injection H as <- <-.
    apply S. unfold parse_normal in E. destruct (files _ _ _ _ _ _ _) as [[[l' b'] r]| |] eqn:EF; try discriminate.
    cbn [bind] in E. assert (F : Forall (fun m => tidy_model m /\ dm_diffs m <> []) l').
    { eapply files_tidy; [| | |exact EF].
      + intros; eapply normal_head_contents; eauto.
      + intros; eapply normal_hunks_tidy; eauto.
      + constructor. }
    assert (Q : forall x, (do r <- hunk_fuel normal_hunks lines (new_model [] []); let '(m, ls) := r in
      Ok (append_model l' m, (b' || negb match ls with [] => true | _ => false end)%bool)) = Ok x ->
      Forall (fun m => tidy_model m /\ dm_diffs m <> []) (fst x)).
    { intros x. destruct (hunk_fuel normal_hunks lines (new_model [] [])) as [[m ls]| |] eqn:EH; try discriminate.
      cbn [bind]. intros Hx; injection Hx as <-. cbn [fst]. unfold append_model.
      destruct (Nat.ltb_spec 0 (length (dm_diffs m))) as [L|L]; [|exact F].
      apply Forall_app. split; [exact F|]. constructor; [|constructor]. split.
      - unfold hunk_fuel in EH. eapply normal_hunks_tidy; [|exact EH]. exists []. split; [|constructor].
        destruct (new_model_named [] [] _ eq_refl) as (_ & _ & _ & _ & C & _). exact C.
      - destruct (dm_diffs m); [cbn in L; lia|discriminate]. }
    destruct g; [exact (Q _ E)|exact (Q _ E)|]. injection E as <- <-. exact F.
  - destruct (parse_unified g lines) as [[l b]| |] eqn:E; try discriminate. cbn [bind]. intros H; injection H as <- <-.
    apply S. unfold parse_unified in E. destruct (files _ _ _ _ _ _ _) as [[[l' b'] r]| |] eqn:EF; try discriminate.
    injection E as <- <-. eapply files_tidy; [| | |exact EF].
    + intros; eapply unified_head_contents; eauto.
    + intros; eapply unified_hunks_tidy; eauto.
    + constructor.
Qed.
