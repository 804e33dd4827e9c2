(** C51: normal and context diffs of files without a final newline. *)
From Coq Require Import String Permutation.
From Verif Require Import Base QtStr Lev Diff Regex Patterns Parser SpecEdit SpecInline SpecPatch SpecParse SpecText SpecUnified SpecNormal SpecMissing
  SpecRegex PRegex PRegexLang PStar PHistory PParse PUnified PHeaders PFileHeads PUnifiedDoc PAnyInput PropsParse PropsText PUnifiedPrint PUnifiedRead PNormal PNormalDoc.
From Verif Require Import PropsNormal SpecContext PContext PContextDoc PMissing.
Local Open Scope Z_scope.

Lemma unmarked_same k c : last_cmd_text k c false false = cmd_text c.
Proof. destruct c; cbn [last_cmd_text cmd_text]; unfold side_text; rewrite ?app_nil_r; reflexivity. Qed.
(** * Folding *)
Definition side_fold (c : chr) (ts : list str) (missing : bool) : list str :=
  if missing then map (cmd_line c) (removelast ts) ++ [c :: SP :: last ts []] else map (cmd_line c) ts.
Lemma side_folded k c ts b : c = 60%N \/ c = 62%N -> no_newline_marker k -> Forall (fun t => ~ In NL t) ts -> (b = true -> ts <> []) ->
  folded (side_text k c ts b) (side_fold c ts b).
Proof.
  intros C K F NE. unfold side_text, side_fold.
  assert (M : forall t, ~ no_newline_marker (cmd_line c t)).
  { intros t [x E]. unfold cmd_line in E. destruct C as [->| ->]; discriminate. }
  assert (MF : forall us, folded (map (cmd_line c) us) (map (cmd_line c) us)).
  { intros us. apply folded_same. apply Forall_map. apply Forall_forall. auto. }
  destruct b; [|rewrite app_nil_r; apply MF].
  destruct (exists_last (NE eq_refl)) as (us & t & ->). rewrite removelast_last, last_last, map_app, <- app_assoc.
  apply folded_app; [apply MF|]. cbn [map app]. unfold cmd_line.
  apply (fo_marked (c :: SP :: t) k [] []); [apply (M t)| |exact K|constructor].
  apply Forall_app in F as [_ F]. inversion_clear F as [|? ? N _]. intros [E|[E|I]]; [destruct C; subst; discriminate|discriminate|auto].
Qed.
Definition last_fold (c : ncmd) (o n : bool) : list str :=
  match c with
  | NAdd _ _ a => hd [] (cmd_text c) :: side_fold 62%N a n
  | NDel _ _ r => hd [] (cmd_text c) :: side_fold 60%N r o
  | NChg _ _ r a => hd [] (cmd_text c) :: side_fold 60%N r o ++ [lit "---" ++ [NL]] ++ side_fold 62%N a n
  end.
Lemma last_folded k c o n : cmd_ok c -> no_newline_marker k -> (o = true -> old_lines c <> []) -> (n = true -> new_lines c <> []) ->
  folded (last_cmd_text k c o n) (last_fold c o n).
Proof.
  intros OK K O N. pose proof (cmd_lines c OK) as L.
  assert (H : ~ no_newline_marker (hd [] (cmd_text c))).
  { destruct (cmd_first c OK) as (x & l & ls & -> & D). cbn [hd]. intros [u U]. injection U as -> _. discriminate. }
  destruct OK as [_ CL _ _]. apply Forall_app in CL as [C1 C2].
  assert (D : ~ no_newline_marker (lit "---" ++ [NL])) by (intros [u U]; discriminate).
  destruct c as [p q a|p q r|p q r a]; cbn [last_cmd_text last_fold cmd_text hd old_lines new_lines] in *; apply fo_keep; auto; try (apply side_folded; auto).
  apply folded_app; [apply side_folded; auto|]. cbn [app]. apply fo_keep; [exact D|]. apply side_folded; auto.
Qed.
(** * The lines of the document *)
Lemma last_lines k c o n : cmd_ok c -> no_newline_marker k -> whole_line k ->
  Forall (fun l => whole_line l /\ (cmd_head l \/ l = k)) (last_cmd_text k c o n).
Proof.
  intros OK K W. pose proof (cmd_lines c OK) as L.
  assert (G : Forall (fun l => whole_line l /\ (cmd_head l \/ l = k)) (cmd_text c)).
  { eapply Forall_impl; [|exact L]. cbn. tauto. }
  assert (B : forall (b : bool), Forall (fun l => whole_line l /\ (cmd_head l \/ l = k)) (if b then [k] else [])).
  { intros []; [apply Forall_cons; [|apply Forall_nil]; auto|apply Forall_nil]. }
  destruct c as [p q a|p q r|p q r a]; cbn [last_cmd_text cmd_text] in *; inversion_clear G as [|? ? G1 G2]; constructor; auto; unfold side_text.
  - apply Forall_app; auto.
  - apply Forall_app; auto.
  - apply Forall_app in G2 as [G2 G3]. inversion_clear G3 as [|? ? G3' G4].
    apply Forall_app; split; [apply Forall_app; auto|]. cbn [app]. apply Forall_cons; [exact G3'|]. apply Forall_app; auto.
Qed.
(** * The last command *)
Lemma no_nl_line mark l : ~ In NL l -> full_match (T mark ~~ RGroup 1 (star any) ~~ nl) l = None.
Proof.
  intros N. destruct (full_match _ l) as [c|] eqn:E; [|reflexivity]. exfalso. apply N.
  assert (H : has_match (T mark ~~ RGroup 1 (star any) ~~ nl) l = true) by (unfold has_match; rewrite E; reflexivity).
  apply has_match_lang in H. inversion H as [| |a1 b1 u v L1 L2 Q1 Q2| | | | |]. subst. inversion L2 as [| |a2 b2 u2 v2 L3 L4 Q3 Q4| | | | |]. subst.
  inversion L4 as [|p x X Q5 Q6| | | | | |]. subst. apply N.eqb_eq in X. subst. apply in_or_app. right. apply in_or_app. right. left. auto.
Qed.
Lemma take_stop mark (ts : list str) rest : Forall (fun t => ~ In NL t) ts ->
  (forall l ls, rest = l :: ls -> full_match (T mark ~~ RGroup 1 (star any) ~~ nl) l = None) ->
  take_matching (T mark ~~ RGroup 1 (star any) ~~ nl) (map (fun t => lit mark ++ t ++ [NL]) ts ++ rest) = (ts, rest).
Proof.
  intros F NR. induction F as [|t ts N F IH]; cbn [map app take_matching].
  - destruct rest as [|l ls]; [reflexivity|]. cbn [take_matching]. rewrite (NR l ls eq_refl). reflexivity.
  - destruct (line_forward mark t N) as (c & -> & ->). rewrite IH. reflexivity.
Qed.
Lemma side_taken mark ch ts (b : bool) rest : lit mark = [ch; SP] -> ch <> NL -> Forall (fun t => ~ In NL t) ts -> (b = true -> ts <> []) ->
  (b = false -> forall l ls, rest = l :: ls -> full_match (T mark ~~ RGroup 1 (star any) ~~ nl) l = None) ->
  take_matching (T mark ~~ RGroup 1 (star any) ~~ nl) (side_fold ch ts b ++ rest) =
    (if b then (removelast ts, (ch :: SP :: last ts []) :: rest) else (ts, rest)).
Proof.
  intros E C F NE NR.
  assert (M : forall us, map (cmd_line ch) us = map (fun t => lit mark ++ t ++ [NL]) us).
  { intros us. apply map_ext. intros t. rewrite E. reflexivity. }
  unfold side_fold. destruct b.
  - destruct (exists_last (NE eq_refl)) as (us & t & ->). rewrite !removelast_last, !last_last. apply Forall_app in F as [F1 F2].
    inversion_clear F2 as [|? ? N _]. rewrite M, <- app_assoc. apply take_stop; [exact F1|].
    intros l ls H. cbn [app] in H. injection H as <- _. apply no_nl_line. intros [X|[X|X]]; [congruence|discriminate|auto].
  - rewrite M. apply take_stop; [exact F|exact (NR eq_refl)].
Qed.
Lemma header_cong l ls ls' ty a b : normal_hunk_header_at (l :: ls) = Some (ty, a, b, ls) -> normal_hunk_header_at (l :: ls') = Some (ty, a, b, ls').
Proof.
  cbn [normal_hunk_header_at]. destruct (full_match normal_added_header l); [intros E; injection E as <- <- <-; reflexivity|].
  destruct (full_match normal_removed_header l); [intros E; injection E as <- <- <-; reflexivity|].
  destruct (full_match normal_changed_header l); [intros E; injection E as <- <- <-; reflexivity|discriminate].
Qed.
Lemma last_fold_head c o n : last_fold c o n = hd [] (cmd_text c) :: tl (last_fold c o n).
Proof. destruct c; reflexivity. Qed.
Lemma last_header c o n : cmd_ok c ->
  normal_hunk_header_at (last_fold c o n) = Some (cmd_type c, old_number c, new_number c, tl (last_fold c o n)).
Proof.
  intros OK. pose proof (cmd_header c [] OK) as H. rewrite !app_nil_r in H. unfold cmd_body in H. rewrite last_fold_head.
  destruct (cmd_first c OK) as (x & l & ls & E & _). rewrite E in *. cbn [hd tl] in *. eapply header_cong. exact H.
Qed.
Definition unread (rest : list str) : Prop := exists l ls c x, rest = l :: ls /\ l = c :: x /\ is_digit c = false.
Lemma last_forward c o n m hs : cmd_ok c -> (o = true -> old_lines c <> []) -> (n = true -> new_lines c <> []) -> o = true \/ n = true ->
  contents m hs ->
  exists m' p rest, normal_hunk_body (cmd_type c) (old_number c) (new_number c) (tl (last_fold c o n)) m = Ok (m', rest) /\
    unread rest /\ contents m' (hs ++ [p]) /\ cmd_kept c o n p /\ (forall st, with_contents m' [] [] st = with_contents m [] [] st).
Proof.
  intros [_ CL CO CN] HO HN ON HC. apply Forall_app in CL as [CL1 CL2].
  set (d := with_texts (kept_old c o) (kept_new c o n) (new_diff (old_number c) (new_number c) (cmd_type c))).
  assert (U : forall ch t ls, ch = 60%N \/ ch = 62%N -> unread ((ch :: SP :: t) :: ls)).
  { intros ch t ls H. exists (ch :: SP :: t), ls, ch, (SP :: t). repeat split; auto. destruct H as [->| ->]; reflexivity. }
  assert (E : exists rest, normal_hunk_body (cmd_type c) (old_number c) (new_number c) (tl (last_fold c o n)) m =
     (do m' <- add_parsed_hunk m (old_number c) (new_number c) [] [d]; Ok (m', rest)) /\ unread rest).
  { unfold normal_hunk_body, normal_removed, normal_added, d, kept_old, kept_new.
    destruct c as [p q a|p q r|p q r a]; cbn [cmd_type old_number new_number old_lines new_lines last_fold tl] in *.
    - destruct o; [destruct (HO eq_refl eq_refl)|]. destruct n; [|destruct ON; discriminate].
      rewrite <- (app_nil_r (side_fold _ _ _)).
      rewrite (side_taken "> " 62%N a true []); [|reflexivity|discriminate|exact CL2|exact HN|discriminate].
      eexists. split; [reflexivity|]. apply U. auto.
    - destruct n; [destruct (HN eq_refl eq_refl)|]. destruct o; [|destruct ON; discriminate].
      rewrite <- (app_nil_r (side_fold _ _ _)).
      rewrite (side_taken "< " 60%N r true []); [|reflexivity|discriminate|exact CL1|exact HO|discriminate].
      eexists. split; [reflexivity|]. apply U. auto.
    - rewrite (side_taken "< " 60%N r o); [|reflexivity|discriminate|exact CL1|exact HO|].
      2:{ intros _ l ls H. cbn [app] in H. injection H as <- _. apply line_no. intros [x X]. discriminate. }
      destruct o.
      + match goal with |- context [has_match normal_divider ?l] => assert (ND : has_match normal_divider l = false) end.
        { unfold has_match, normal_divider. rewrite line_no; [reflexivity|]. intros [x X]; discriminate. }
        rewrite ND. eexists. split; [reflexivity|]. apply U. auto.
      + destruct n; [|destruct ON; discriminate]. cbn [app].
        match goal with |- context [has_match normal_divider ?l] => replace (has_match normal_divider l) with true by reflexivity end.
        rewrite <- (app_nil_r (side_fold _ _ _)).
        rewrite (side_taken "> " 62%N a true []); [|reflexivity|discriminate|exact CL2|exact HN|discriminate].
        eexists. split; [reflexivity|]. apply U. auto. }
  destruct E as (rest & E & UR). rewrite E, add_parsed_hunk_ok. cbn [bind].
  exists (with_contents m
        (dm_hunks m ++ [mk_hunk (old_number c) (new_number c) [] HNormal (seq (length (dm_store m)) (length [d]))])
        (dm_diffs m ++ ids_from (length (dm_store m)) [d]) (dm_store m ++ map linked [d])).
  exists (mk_hunk (old_number c) (new_number c) [] HNormal (seq (length (dm_store m)) (length [d])), map linked [d]).
  exists rest. split; [reflexivity|]. split; [exact UR|]. split; [now apply contents_add|]. split; [|reflexivity].
  unfold cmd_kept. cbn [fst snd h_src h_dst h_function h_type]. repeat (split; [reflexivity|]).
  assert (K : linked d = set_connected true d) by (unfold linked, d; destruct c; reflexivity).
  exists (linked d). split; [reflexivity|]. rewrite K. unfold d.
  repeat split; cbn; try (apply lines_of_new); try (destruct c; reflexivity).
Qed.

Lemma cmds_then_last cs c o n : forall fuel m hs, Forall cmd_ok cs -> cmd_ok c ->
  (o = true -> old_lines c <> []) -> (n = true -> new_lines c <> []) -> o = true \/ n = true ->
  (S (length cs) < fuel)%nat -> contents m hs ->
  exists m' ps p rest, normal_hunks fuel (concat (map cmd_text cs) ++ last_fold c o n) m = Ok (m', rest) /\ rest <> [] /\
    contents m' (hs ++ ps ++ [p]) /\ Forall2 cmd_is cs ps /\ cmd_kept c o n p /\
    (forall st, with_contents m' [] [] st = with_contents m [] [] st).
Proof.
  induction cs as [|c1 cs IH]; intros fuel m hs F OK HO HN ON L HC; (destruct fuel as [|fuel]; [cbn in L; lia|]); cbn [normal_hunks map concat app].
  - rewrite last_header by assumption. destruct (last_forward c o n m hs OK HO HN ON HC) as (m' & p & rest & E & U & C & K & W).
    rewrite E. cbn [bind]. exists m', [], p, rest. destruct fuel as [|fuel]; [cbn in L; lia|]. cbn [normal_hunks].
    destruct U as (l & ls & x & y & -> & -> & D). rewrite no_command_at.
    2:{ intros l' ls' H z w ->. injection H as -> _ _. exact D. }
    split; [reflexivity|]. split; [discriminate|]. split; [exact C|]. split; [constructor|]. split; [exact K|exact W].
  - inversion_clear F as [|? ? OK1 F']. cbn [length] in L. rewrite <- app_assoc, cmd_header by assumption.
    destruct (cmd_forward c1 (concat (map cmd_text cs) ++ last_fold c o n) m hs OK1) as (m1 & p1 & B & C1 & HI & W1).
    { intros l' ls' H.
      assert (Q : exists x y, l' = x :: y /\ is_digit x = true).
      { destruct F' as [|c2 cs OK2 F']; cbn [map concat app] in H.
        - destruct (cmd_first c OK) as (x & l & ls & E & D). rewrite last_fold_head, E in H. cbn [hd] in H. injection H as <- _. eauto.
        - destruct (cmd_first c2 OK2) as (x & l & ls & E & D). rewrite E in H. injection H as <- _. eauto. }
      destruct Q as (x & y & -> & D). split; intros [z Z]; injection Z as -> _; discriminate. }
    { exact HC. }
    destruct (IH fuel m1 (hs ++ [p1]) F' OK HO HN ON ltac:(lia) C1) as (m' & ps & p & rest & E & R & C2 & F2 & K & W2).
    exists m', (p1 :: ps), p, rest. rewrite B. cbn [bind]. split; [exact E|]. split; [exact R|].
    rewrite <- app_assoc in C2. split; [exact C2|]. split; [constructor; assumption|]. split; [exact K|].
    intros st. rewrite W2. apply W1.
Qed.

(** C51, in part. A normal diff whose last command carries markers (after the old lines, the new lines or both)
    is read as one file without names and reported malformed. Every command before the last one is read exactly,
    and so are the place and the kind of the last; of its lines the one before a marker is lost, and when the old
    side is marked all new lines of a change are lost with it. *)
Theorem C51_normal_missing_newline_partial :
  forall sort cs c k (o n : bool), (forall l, Permutation (sort l) l) ->
    Forall cmd_ok cs -> cmd_ok c -> no_newline_marker k -> whole_line k ->
    (o = true -> old_lines c <> []) -> (n = true -> new_lines c <> []) -> o = true \/ n = true ->
    exists out m, parse sort (split_lines (concat (concat (map cmd_text cs) ++ last_cmd_text k c o n))) = Ok out /\
      po_malformed out = true /\ po_format out = Normal /\ po_models out = Some [m] /\ named m [] [] [] [] /\
      exists hs p, contents m (hs ++ [p]) /\ Forall2 cmd_is cs hs /\ cmd_kept c o n p.
Proof.
  intros sort cs c k o n HP F OK K WK HO HN ON.
  pose proof (cmds_lines cs F) as CL. pose proof (last_lines k c o n OK K WK) as LL.
  set (doc := concat (map cmd_text cs) ++ last_cmd_text k c o n) in *.
  assert (AL : Forall (fun l => whole_line l /\ (cmd_head l \/ l = k)) doc).
  { apply Forall_app. split; [|exact LL]. eapply Forall_impl; [|exact CL]. cbn. tauto. }
  rewrite split_whole by (eapply Forall_impl; [|exact AL]; cbn; tauto).
  assert (NK : forall p x, lit p = x :: tl (lit p) -> x <> BSL -> ~ begins p k).
  { intros p x E NB [u U]. destruct K as [v K]. rewrite E, K in U. apply (f_equal (hd 0%N)) in U. cbn in U. apply NB. symmetry. exact U. }
  assert (B : forall p x, lit p = x :: tl (lit p) -> is_digit x = false -> x <> 60%N -> x <> 62%N -> x <> BSL -> ~ begins p (lit "---" ++ [NL]) ->
     Forall (fun l => ~ begins p l) doc).
  { intros p x E1 E2 E3 E4 E4' E5. eapply Forall_impl; [|exact AL]. intros l [_ [H| ->]]; [eapply cmd_head_not; eauto|eapply NK; eauto]. }
  assert (G : determine_generator doc = DiffDiff).
  { apply generator_of; [apply (B "==== "%string 61%N)|apply (B "Index: "%string 73%N)]; try reflexivity; try discriminate; intros [u U]; discriminate. }
  set (out := concat (map cmd_text cs) ++ last_fold c o n).
  assert (FO : folded doc out).
  { apply folded_app; [|now apply last_folded]. apply folded_same. eapply Forall_impl; [|exact CL]. intros l [_ H].
    apply (cmd_head_not "\ No newline" l BSL); try reflexivity; try discriminate; auto. intros [u U]; discriminate. }
  destruct (clean_folded _ _ FO [] 0) as [cnt EC]. cbn [rev app] in EC.
  destruct empty_contents as [C0 N0].
  destruct (cmds_then_last cs c o n (S (length out)) (new_model [] []) [] F OK HO HN ON) as (m & ps & p & rest & E & R & C & FP & KP & W); auto.
  { unfold out. rewrite app_length. pose proof (cmds_count cs F). rewrite (last_fold_head c o n). cbn [length].
    enough (0 < length (tl (last_fold c o n)))%nat by (unfold str, chr in *; lia).
    destruct OK as [_ _ CO CN].
    destruct c as [x y a|x y r|x y r a]; cbn [last_fold tl old_lines new_lines cmd_type] in *; unfold side_fold; rewrite ?app_length; cbn [length]; try lia.
    - assert (a <> []) by (apply CN; discriminate). destruct n; rewrite ?app_length, ?map_length; [cbn; lia|destruct a; [congruence|cbn; lia]].
    - assert (r <> []) by (apply CO; discriminate). destruct o; rewrite ?app_length, ?map_length; [cbn; lia|destruct r; [congruence|cbn; lia]]. }
  unfold parse. rewrite G. unfold clean_up_crap. rewrite EC. cbn [bind]. unfold base_parse.
  fold out in E.
  assert (FM : determine_format DiffDiff out = Normal).
  { unfold out. destruct F as [|c1 cs1 OK1 F1].
    - cbn [map concat app]. rewrite last_fold_head. cbn [determine_format]. rewrite cmd_format by (auto; discriminate). reflexivity.
    - apply cmds_format; [discriminate|constructor; assumption|discriminate]. }
  rewrite FM.
  assert (D : Forall (fun l => ~ begins "diff " l) out).
  { assert (HF : forall ls ls', folded ls ls' -> Forall (fun l => ~ begins "diff " l) ls -> Forall (fun l => ~ begins "diff " l) ls').
    { clear. induction 1 as [|l ls o H FF IH|t kk ls o H1 H2 H3 FF IH]; intros A; [constructor| |].
      - inversion_clear A. constructor; auto.
      - inversion_clear A as [|? ? A1 A2]. inversion_clear A2. constructor; auto. intros [u ->]. apply A1. exists (u ++ [NL]). now rewrite <- app_assoc. }
    eapply HF; [exact FO|]. apply (B "diff "%string 100%N); try reflexivity; try discriminate; intros [u U]; discriminate. }
  unfold parse_normal. cbn [files]. unfold normal_head_of at 1. rewrite no_header_search by assumption. cbn [bind].
  unfold hunk_fuel. rewrite E. cbn [bind]. unfold append_model.
  assert (L : Nat.ltb 0 (length (dm_diffs m)) = true).
  { destruct C as [[H1 H2 H3 H4 _ _] H5]. destruct KP as (_ & _ & _ & d & E1 & T & _).
    cbn [app] in H3. rewrite map_app, concat_app in H3. cbn [map concat] in H3. rewrite E1 in H3. cbn [app] in H3.
    rewrite filter_app in H3. cbn [filter] in H3.
    assert (negb (is_context d) = true) as Q by (unfold is_context; rewrite T; destruct c; reflexivity).
    rewrite Q in H3. destruct (dm_diffs m); [|reflexivity]. exfalso. cbn in H3.
    destruct (filter _ (concat (map snd ps))); discriminate. }
  rewrite L. cbn [app].
  rewrite (one_permuted m (sort [m])) by apply HP.
  eexists. exists m. split; [reflexivity|]. cbn [po_malformed po_format po_models].
  split; [destruct rest; [congruence|reflexivity]|]. split; [reflexivity|]. split; [reflexivity|].
  split; [eapply named_contents; eauto|]. exists ps, p. auto.
Qed.
Print Assumptions C51_normal_missing_newline_partial.
(** A case: a removal, then a change whose two sides are marked. *)
Definition missing_marker : str := lit "\ No newline at end of file" ++ [NL].
Example C51_normal_example :
  Forall cmd_ok [NDel 2 1 [lit "x"]] /\ cmd_ok (NChg 5 4 [lit "a"; lit "b"] [lit "c"; lit "d"]) /\
  no_newline_marker missing_marker /\ whole_line missing_marker /\
  summary (parse (fun l => l) (split_lines (concat (concat (map cmd_text [NDel 2 1 [lit "x"]]) ++
     last_cmd_text missing_marker (NChg 5 4 [lit "a"; lit "b"] [lit "c"; lit "d"]) false true)))) =
    Some ([[(Delete, [lit "x"], []); (Change, [lit "a"; lit "b"], [lit "c"])]], true).
Proof.
  assert (N : forall s, negb (existsb (N.eqb NL) (lit s)) = true -> ~ In NL (lit s)).
  { intros s H I. apply negb_true_iff in H. assert (existsb (N.eqb NL) (lit s) = true); [|congruence].
    apply existsb_exists. exists NL. split; [exact I|reflexivity]. }
  split; [|split; [|split; [|split]]].
  - apply Forall_cons; [|apply Forall_nil].
    split; [cbn; unfold small; lia|cbn [old_lines new_lines app]; apply Forall_cons; [now apply N|apply Forall_nil]|discriminate|].
    cbn [cmd_type]. intros H. now destruct H.
  - split; [cbn; unfold small; lia| |discriminate|discriminate]. cbn [old_lines new_lines app].
    repeat (apply Forall_cons; [now apply N|]). apply Forall_nil.
  - exists (lit " at end of file" ++ [NL]). reflexivity.
  - exists (lit "\ No newline at end of file"). split; [reflexivity|]. apply N. reflexivity.
  - vm_compute. reflexivity.
Qed.

(** C51, in part, for context diffs. A context diff (of diff or of CVS) in which the last hunks of some files carry
    markers is read file by file, and reported malformed exactly if there is a marker. All hunks but the marked ones
    are read exactly. A marked hunk is lost if the marker is on the old side; otherwise its last new line is lost.
    A file of which no difference is left is not in the list. *)
Theorem C51_context_missing_newline_partial :
  forall cvs sort k d, (forall l, Permutation (sort l) l) -> no_newline_marker k -> whole_line k -> mdoc_ok cvs d ->
    exists o, parse sort (split_lines (mdoc_text k d)) = Ok o /\ po_format o = Context /\
      (po_malformed o = true <-> Exists (fun p => mp_old p = true \/ mp_new p = true) (md_files d)) /\
      exists mss, Permutation (the_models (po_models o)) (concat mss) /\ Forall2 (marked_is cvs) (md_files d) mss.
Proof.
  intros cvs sort k d HP K WK [OK MK]. unfold mdoc_text.
  assert (WL : Forall whole_line (mdoc_lines k d)).
  { apply (mdoc_all k cvs d _ OK); [|intros l [H _]; exact H|exact WK]. intros l [(t & E & N) _ _ _] _. exists t; auto. }
  rewrite split_whole by exact WL.
  assert (FO : folded (mdoc_lines k d) (concat (map mpatch_fold (md_files d)) ++ md_after d)).
  { unfold mdoc_lines. apply folded_app.
    - destruct OK as [F _ _ _ _ _]. cbn [cd_files] in F. clear -F MK K. induction MK as [|p ps M MK IH]; [constructor|].
      cbn [map concat] in *. inversion_clear F as [|? ? F1 F2]. apply folded_app; [eapply mpatch_folded; eauto|auto].
    - apply folded_same. destruct OK as [_ _ A _ _ _]. eapply Forall_impl; [|exact A]. intros l [_ _ _ H]. exact H. }
  destruct (clean_folded _ _ FO [] 0) as [cnt EC]. cbn [rev app] in EC.
  assert (NK : forall p x, lit p = x :: tl (lit p) -> x <> BSL -> ~ begins p k).
  { intros p x E NB [u U]. destruct K as [v K]. rewrite E, K in U. apply (f_equal (hd 0%N)) in U. cbn in U. apply NB. symmetry. exact U. }
  assert (G : determine_generator (mdoc_lines k d) = dialect cvs).
  { assert (NP : Forall (fun l => ~ begins "==== " l) (mdoc_lines k d)).
    { apply (mdoc_all k cvs d _ OK); [intros l H _; apply H| |apply (NK "==== "%string 61%N); [reflexivity|discriminate]].
      intros l. apply (own_not "==== " 61%N); [reflexivity|vm_compute; intuition discriminate]. }
    pose proof OK as [_ _ _ _ _ D]. cbn [cd_files cd_after] in D. destruct cvs; cbn [dialect].
    - apply index_line_generator; [exact NP|]. apply Exists_exists in D as (l & I & B). apply Exists_exists. exists l. split; [|exact B].
      unfold mdoc_lines. apply in_app_or in I as [I|I]; apply in_or_app; [left|auto].
      apply in_concat in I as (ls & I1 & I2). rewrite map_map in I1. apply in_map_iff in I1 as (p & <- & I1). apply in_concat. exists (mpatch_text k p).
      split; [now apply in_map|]. unfold mpatch_text. apply in_or_app. auto.
    - apply generator_of; [exact NP|]. apply (mdoc_all k false d _ OK); [|intros l; apply (own_not "Index: " 73%N); [reflexivity|vm_compute; intuition discriminate]|
        apply (NK "Index: "%string 73%N); [reflexivity|discriminate]].
      intros l _ I. rewrite Forall_forall in D. now apply D. }
  assert (FM : determine_format (dialect cvs) (concat (map mpatch_fold (md_files d)) ++ md_after d) = Context).
  { destruct OK as [F SO _ Q _ _]. cbn [cd_files cd_after] in *. destruct (md_files d) as [|p ps]; [now destruct SO|]. cbn [map] in *.
    specialize (Q (mp_patch p) (map mp_patch ps) eq_refl). inversion_clear F as [|? ? OKp _].
    cbn [concat]. unfold mpatch_fold at 1. rewrite <- !app_assoc.
    induction Q as [|l ls [QL NL'] Q IH].
    - cbn [app determine_format]. rewrite cheading_format by assumption. reflexivity.
    - cbn [app determine_format]. rewrite quiet_format; [|destruct cvs; discriminate|exact QL|exact NL']. exact IH. }
  destruct (mfiles_forward cvs (md_files d) (S (length (concat (map mpatch_fold (md_files d)) ++ md_after d))) [] (md_after d) [] false) as (mss & rest & E & F).
  - constructor.
  - apply OK.
  - exact MK.
  - apply OK.
  - destruct OK as [_ SO _ _ R _]. cbn [cd_files cd_after] in *. destruct (md_files d) as [|p ps]; [now destruct SO|]. exact (R _ _ eq_refl).
  - rewrite app_length.
    enough (forall l, (length l <= length (concat (map mpatch_fold l)))%nat) as Q by (specialize (Q (md_files d)); unfold str, chr in *; lia).
    induction l as [|p l IH]; cbn [map concat length]; [lia|]. rewrite app_length. unfold mpatch_fold at 1. rewrite !app_length. cbn [length]. lia.
  - unfold parse. rewrite G. unfold clean_up_crap. rewrite EC. cbn [bind]. unfold base_parse. rewrite FM.
    unfold parse_context. cbn [app] in E. unfold str, chr in *. rewrite E. cbn [bind app orb].
    eexists. split; [reflexivity|]. cbn [po_malformed po_format po_models]. split; [reflexivity|]. split.
    + rewrite existsb_exists, Exists_exists. unfold is_marked. split; intros (p & I & H); exists p; (split; [exact I|]); now apply orb_true_iff.
    + exists mss. split; [|exact F]. rewrite the_models_sort. apply HP.
Qed.
Print Assumptions C51_context_missing_newline_partial.
(** A case: of the first file only the new version has no final newline, of the second both. *)
From Verif Require Import PropsUnified PropsContext.
Definition sample_mdoc : mdoc := mk_md
  [mk_mp (mk_cp [nl "diff -c a/x b/x"] (lit "a/x") (lit "b/x") (lit "Mon Jan  1 2020") (lit "Tue Jan  2 2020") None None sample_chunks) false true;
   mk_mp (mk_cp [] (lit "old name") (lit "new name") [] [] None None [mk_ch 1 1 [] [Chg [lit "p"] [lit "q"]; Ctx [lit "r"]]]) true true]
  [nl "diff -c other"].
Example C51_context_example : mdoc_ok false sample_mdoc /\
  mdoc_text missing_marker sample_mdoc = concat (map nl
   ["diff -c a/x b/x"; "*** a/x	Mon Jan  1 2020"; "--- b/x	Tue Jan  2 2020";
    "*************** int main()"; "*** 3,5 ****"; "--- 3,6 ----"; "  a"; "  "; "+ new"; "  b";
    "***************"; "*** 20,24 ****"; "! x"; "! y"; "  c"; "- gone"; "  d"; "--- 21,24 ----"; "! - z"; "  c"; "  d"; "+ more"; "\ No newline at end of file";
    "*** old name"; "--- new name"; "***************"; "*** 1,2 ****"; "! p"; "  r"; "\ No newline at end of file"; "--- 1,2 ----"; "! q"; "  r"; "\ No newline at end of file";
    "diff -c other"]%string) /\
  summary (parse (fun l => l) (split_lines (mdoc_text missing_marker sample_mdoc))) =
    Some ([[(Unchanged, [lit "a"; lit ""], [lit "a"; lit ""]); (Insert, [], [lit "new"]); (Unchanged, [lit "b"], [lit "b"]);
            (Change, [lit "x"; lit "y"], [lit "- z"]); (Unchanged, [lit "c"], [lit "c"]); (Delete, [lit "gone"], []); (Unchanged, [lit "d"], [lit "d"])]], true).
Proof.
  split; [|split; vm_compute; reflexivity]. split.
  - exact (proj1 C24_example).
  - assert (LE : forall (us : list chunk) h x y, us ++ [h] = x ++ [y] -> h = y) by (intros us h x y E; apply app_inj_tail in E; tauto).
    apply Forall_cons; [|apply Forall_cons; [|apply Forall_nil]]; intros us h E; cbn [mp_patch cp_chunks mp_old mp_new] in *.
    + apply (LE [hd h sample_chunks]) in E. subst h. cbn [ch_segs]. split; [discriminate|]. split; [reflexivity|]. intros _ _.
      exists [Chg [lit "x"; lit "y"] [lit "- z"]; Ctx [lit "c"]; Chg [lit "gone"] []; Ctx [lit "d"]], (Chg [] [lit "more"]).
      split; [reflexivity|]. split; [discriminate|]. intros [].
    + apply (LE []) in E. subst h. split; [reflexivity|]. split; [reflexivity|discriminate].
Qed.
