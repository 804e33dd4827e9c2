(** Reading printed Perforce documents. *)
From Coq Require Import String Sorted Permutation.
From Verif Require Import Base QtStr Lev Diff Regex Patterns Parser SpecEdit SpecInline SpecPatch SpecRegex SpecParse SpecText
  PRegex PRegexLang PStar PHistory PParse PUnified PHeaders PFileHeads PUnifiedDoc PAnyInput PropsParse PropsText
  SpecUnified SpecNormal SpecContext SpecPerforce PUnifiedPrint PUnifiedRead PNormal PNormalDoc PContext PContextDoc.
Local Open Scope Z_scope.

(** * The header line *)
Lemma perforce_unique l s d s' d' : perforce_line l s d -> perforce_line l s' d' -> s = s' /\ d = d'.
Proof.
  intros [s0 d0 NS ND M] H. inversion H as [s1 d1 NS' ND' M' E]. subst s1 d1.
  assert (EQ : s0 ++ lit " - " ++ d0 = s' ++ lit " - " ++ d').
  { apply (app_inv_tail (lit " ====" ++ [NL])). rewrite <- !app_assoc. symmetry. exact E. }
  pose proof (M _ _ EQ) as L1. pose proof (M' _ _ (eq_sym EQ)) as L2.
  assert (L : length s0 = length s') by lia.
  assert (s0 = s') as ->.
  { revert EQ L. clear. revert s'. induction s0 as [|x s0 IH]; intros [|y s'] EQ L; cbn in L; try lia; [reflexivity|].
    cbn [app] in EQ. injection EQ as -> EQ. f_equal. apply (IH s'); [exact EQ|lia]. }
  split; [reflexivity|]. apply app_inv_head in EQ. now apply app_inv_head in EQ.
Qed.
(** The first dash between blanks is the one between the sides. *)
Lemma first_dash (w d u v : str) : (forall a b, w ++ lit " -" <> a ++ lit " - " ++ b) ->
  w ++ lit " - " ++ d = u ++ lit " - " ++ v -> (length w <= length u)%nat.
Proof.
  revert u. induction w as [|x w IH]; intros u N E; [cbn; lia|].
  destruct u as [|y u].
  - exfalso. cbn [app] in E. injection E as -> E. destruct w as [|x2 w]; cbn [app] in E.
    + discriminate.
    + injection E as -> E. destruct w as [|x3 w]; cbn [app] in E.
      * injection E as E. apply (N [] (lit "-")). reflexivity.
      * injection E as -> E. apply (N [] (w ++ lit " -")). reflexivity.
  - cbn [app] in E. injection E as -> E. cbn [length]. apply le_n_S. apply IH; [|exact E].
    intros a b H. apply (N (y :: a) b). cbn [app]. f_equal. exact H.
Qed.
Lemma hash_split (n r u v : str) : ~ In 35%N n -> n ++ lit "#" ++ r = u ++ lit "#" ++ v -> ~ In 35%N u -> n = u.
Proof.
  revert u. induction n as [|x n IH]; intros [|y u] N E M; [reflexivity| | |].
  - cbn [app] in E. injection E as <- _. exfalso. apply M. left. reflexivity.
  - cbn [app] in E. injection E as -> _. exfalso. apply N. left. reflexivity.
  - cbn [app] in E. injection E as -> E. f_equal. apply IH; auto; intros I; [apply N|apply M]; now right.
Qed.
Section F.
Context {A : Type} (ok : A -> Prop) (changing : list A -> Prop).
Implicit Type f : pfile A.
Lemma digits_no c s : all_digits s -> is_digit c = false -> ~ In c s.
Proof. unfold all_digits. rewrite forallb_forall. intros D E I. rewrite (D c I) in E. discriminate. Qed.
Lemma pheader_line f : pfile_ok ok changing f -> perforce_line (pheader f) (pf_old f) (pf_new f).
Proof.
  intros [_ (O1 & O2) N1 _ _]. apply pl_intro; auto. intros u v E. eapply first_dash; eauto.
Qed.
Lemma not_perforce l : ~ begins "==== " l -> full_match perforce_header l = None.
Proof.
  intros N. pose proof (perforce_match l) as M. destruct (full_match perforce_header l); [|reflexivity].
  exfalso. apply N. inversion M. eexists. reflexivity.
Qed.
Lemma phead_forward f rest : pfile_ok ok changing f ->
  exists m n1 n2, perforce_diff_header (pf_before f ++ [pheader f] ++ rest) = (Some m, rest) /\ contents m [] /\
    perforce_name true (pf_old f) n1 /\ perforce_name false (pf_new f) n2 /\ named m n1 n2 [] [].
Proof.
  intros OK. pose proof (pheader_line f OK) as PL.
  pose proof (perforce_match (pheader f)) as M. destruct (full_match perforce_header (pheader f)) as [c|] eqn:E.
  2:{ exfalso. apply M. eexists _, _. exact PL. }
  destruct (perforce_unique _ _ _ _ _ PL M) as [E1 E2].
  set (n1 := match full_match perforce_source_file (pf_old f) with Some c => captured 1 c | None => [] end).
  set (n2 := match full_match perforce_destination_file (pf_new f) with Some c => captured 1 c | None => [] end).
  destruct (set_files_named n1 n2 _ eq_refl) as [N C].
  exists (set_destination_file n2 (set_source_file n1 (new_model [] []))), n1, n2. split; [|split; [exact C|split; [|split; [|exact N]]]].
  - destruct OK as [B _ _ _ _]. induction B as [|l ls [_ H _] B IH]; cbn [app perforce_diff_header].
    + rewrite E. cbv zeta. rewrite <- E1, <- E2. reflexivity.
    + rewrite not_perforce by assumption. exact IH.
  - subst n1. pose proof (source_name_match (pf_old f)) as H. destruct (full_match perforce_source_file _); [left; exact H|right; auto].
  - subst n2. pose proof (destination_name_match (pf_new f)) as H. destruct (full_match perforce_destination_file _); [left; exact H|right; auto].
Qed.
(** * Files *)
Definition ptail (ls : list str) : Prop := forall l ls', ls = l :: ls' -> resumes l \/ perforce_start l.
Lemma ptail_fine ls : ptail ls -> bad_next_header perforce_header ls = false.
Proof.
  intros T. destruct ls as [|l ls]; [reflexivity|]. unfold bad_next_header. destruct (T l ls eq_refl) as [[H|[H|H]]|H].
  1-3: apply starts_with_app in H; rewrite H; now rewrite !andb_false_r.
  pose proof (perforce_match l) as M. unfold has_match. destruct (full_match perforce_header l); [reflexivity|contradiction].
Qed.
Lemma ptail_begins ls : ptail ls -> forall l ls', ls = l :: ls' -> exists c x, l = c :: x /\ (In c (lit "dI=") \/ begins "-- " l).
Proof.
  intros T l ls' E. destruct (T l ls' E) as [[[x ->]|[[x ->]|[x ->]]]|(s & d & H)].
  - eexists _, _. split; [reflexivity|]. left. cbn. tauto.
  - eexists _, _. split; [reflexivity|]. left. cbn. tauto.
  - eexists _, _. split; [reflexivity|]. right. eexists. reflexivity.
  - inversion H. eexists _, _. split; [reflexivity|]. left. cbn. tauto.
Qed.
Variables (text clean : A -> list str) (is : A -> hunk * list difference -> Prop)
          (hunks : nat -> list str -> dmodel -> res (dmodel * list str)).
Definition reads : Prop := forall us fuel rest m hs, Forall ok us -> ptail rest -> (length us < fuel)%nat -> contents m hs ->
  exists m' ps, hunks fuel (concat (map clean us) ++ rest) m = Ok (m', rest) /\ contents m' (hs ++ ps) /\ Forall2 is us ps /\
    (forall st, with_contents m' [] [] st = with_contents m [] [] st).
Definition lists : Prop := forall us m hs, Forall ok us -> changing us -> contents m hs -> Forall2 is us hs -> (0 < length (dm_diffs m))%nat.
Definition pfile_clean f : list str := pf_before f ++ [pheader f] ++ concat (map clean (pf_body f)).
Lemma ptail_of ps after : Forall (pfile_ok ok changing) ps -> Forall may_resume (map pf_before ps ++ [after]) ->
  ptail (concat (map pfile_clean ps) ++ after).
Proof.
  intros OK R. destruct ps as [|p ps].
  - cbn in *. inversion_clear R. intros l ls E. left. eapply H; eauto.
  - inversion_clear OK as [|? ? OKp _]. cbn in R. inversion_clear R as [|? ? R1 _].
    cbn [map concat]. unfold pfile_clean at 1. intros l ls E. destruct (pf_before p) as [|b bs].
    + right. cbn [app] in E. injection E as <- _. eexists _, _. now apply pheader_line.
    + left. cbn [app] in E. injection E as <- _. eapply R1. reflexivity.
Qed.
Hypotheses (READS : reads) (LISTS : lists) (NONEMPTY : forall u, ok u -> clean u <> []).
Lemma bodies_count us : Forall ok us -> (length us <= length (concat (map clean us)))%nat.
Proof.
  induction 1 as [|u us H F IH]; cbn [map concat length]; [lia|]. rewrite app_length. pose proof (NONEMPTY u H).
  destruct (clean u); [congruence|cbn; lia].
Qed.
Lemma pfiles_forward ps : forall fuel after ms,
  Forall (pfile_ok ok changing) ps -> Forall pbetween after -> Forall may_resume (tl (map pf_before ps ++ [after])) ->
  (length ps < fuel)%nat ->
  exists new rest, files (fun ls => Ok (perforce_diff_header ls)) (hunk_fuel hunks) perforce_header fuel
      (concat (map pfile_clean ps) ++ after) ms false = Ok (ms ++ new, false, rest) /\ Forall2 (pfile_is is) ps new.
Proof.
  induction ps as [|p ps IH]; intros fuel after ms OK BA R L; (destruct fuel as [|fuel]; [cbn in L; lia|]); cbn [files].
  - exists [], []. rewrite app_nil_r. split; [|constructor]. cbn [map concat app].
    enough (perforce_diff_header after = (None, [])) as -> by reflexivity. clear -BA.
    induction BA as [|l ls [_ H _] BA IH]; [reflexivity|]. cbn [perforce_diff_header]. rewrite not_perforce by assumption. exact IH.
  - inversion_clear OK as [|? ? OKp OK']. cbn [map tl] in R. cbn [app tl] in R.
    pose proof (ptail_of _ _ OK' R) as TO. pose proof (ptail_fine _ TO) as BN.
    destruct (phead_forward p (concat (map clean (pf_body p)) ++ concat (map pfile_clean ps) ++ after) OKp) as (m0 & n1 & n2 & E0 & C0 & R1 & R2 & NM0).
    destruct (READS (pf_body p) (S (length (concat (map clean (pf_body p)) ++ concat (map pfile_clean ps) ++ after)))
      (concat (map pfile_clean ps) ++ after) m0 []) as (m & hs & EH & C & F & W); [destruct OKp; assumption|exact TO| |exact C0|].
    { rewrite app_length. pose proof (bodies_count (pf_body p) ltac:(apply OKp)). unfold str, chr in *. lia. }
    assert (PI : pfile_is is p m) by (split; [exists n1, n2; repeat split; auto; eapply named_contents; eauto|exists hs; auto]).
    destruct (IH fuel after (ms ++ [m]) OK' BA) as (new & rest & E & FN); [|cbn in L; lia|].
    { destruct ps; cbn in *; [constructor|]. inversion_clear R. assumption. }
    exists (m :: new), rest. split; [|constructor; assumption].
    cbn [map concat]. unfold pfile_clean at 1. rewrite <- !app_assoc. unfold str, chr in *. rewrite E0.
    cbn [bind]. unfold hunk_fuel at 1. unfold str, chr in *. rewrite EH. cbn [bind]. rewrite BN. cbn [orb].
    unfold append_model. pose proof (LISTS _ _ _ ltac:(apply OKp) ltac:(apply OKp) C F) as LI. apply Nat.ltb_lt in LI. rewrite LI.
    rewrite E. rewrite <- app_assoc. reflexivity.
Qed.
(** * Lines, generator, format *)
Hypotheses (WHOLE : forall u, ok u -> Forall whole_line (text u)) (FOLDED : forall u, ok u -> folded (text u) (clean u)).
Definition pdoc_clean (d : pdoc A) : list str := concat (map pfile_clean (pd_files d)) ++ pd_after d.
Lemma pheader_whole f : pfile_ok ok changing f -> whole_line (pheader f).
Proof.
  intros OK. destruct (pheader_line f OK) as [s d NS ND _]. exists (lit "==== " ++ s ++ lit " - " ++ d ++ lit " ====").
  split; [rewrite <- !app_assoc; reflexivity|]. repeat apply no_nl_app; auto; apply no_nl_lit; reflexivity.
Qed.
Lemma between_whole ls : Forall pbetween ls -> Forall whole_line ls.
Proof. apply Forall_impl. intros l [(t & -> & N) _ _]. exists t. auto. Qed.
Lemma pdoc_whole d : pdoc_ok ok changing d -> Forall whole_line (pdoc_lines text d).
Proof.
  intros [F _ AF _ _]. unfold pdoc_lines. apply Forall_app. split; [|now apply between_whole].
  apply Forall_concat, Forall_map. eapply Forall_impl; [|exact F]. intros f OK. unfold pfile_text. apply Forall_app. split.
  - apply between_whole, OK.
  - cbn [app]. constructor; [now apply pheader_whole|]. apply Forall_concat, Forall_map. eapply Forall_impl; [|apply OK]. exact WHOLE.
Qed.
Lemma between_folded ls : Forall pbetween ls -> folded ls ls.
Proof. intros F. apply folded_same. eapply Forall_impl; [|exact F]. intros l [_ _ H]. exact H. Qed.
Lemma pdoc_folded d : pdoc_ok ok changing d -> folded (pdoc_lines text d) (pdoc_clean d).
Proof.
  intros [F _ AF _ _]. unfold pdoc_lines, pdoc_clean. apply folded_app; [|now apply between_folded].
  apply folded_concat. eapply Forall_impl; [|exact F]. intros f OK. unfold pfile_text, pfile_clean. apply folded_app; [apply between_folded, OK|].
  apply folded_app.
  - apply folded_same. constructor; [|constructor]. intros [x X]. discriminate.
  - apply folded_concat. eapply Forall_impl; [|apply OK]. exact FOLDED.
Qed.
Lemma pdoc_generator d : pdoc_ok ok changing d -> determine_generator (pdoc_lines text d) = Perforce.
Proof.
  intros [F S AF Q _]. unfold pdoc_lines. destruct (pd_files d) as [|f fs]; [congruence|]. specialize (Q f fs eq_refl).
  inversion_clear F as [|? ? OK _]. cbn [map concat]. unfold pfile_text at 1. rewrite <- !app_assoc.
  pose proof (pf_before_ok _ _ _ OK) as B. induction B as [|l ls [_ H _] B IH]; cbn [app determine_generator].
  - reflexivity.
  - inversion_clear Q as [|? ? (_ & NI & _) Q'].
    assert (starts_with (lit "Index: ") l = false) as -> by (apply starts_false; intros x ->; apply NI; eexists; reflexivity).
    assert (starts_with (lit "==== ") l = false) as -> by (apply starts_false; intros x ->; apply H; eexists; reflexivity).
    apply IH. exact Q'.
Qed.
Variable fmt : format.
Hypothesis FORMAT : forall us rest, Forall ok us -> changing us -> determine_format Perforce (concat (map clean us) ++ rest) = fmt.
Lemma quiet_perforce l : quiet l -> ~ begins "@@" l -> ~ begins "***************" l -> line_format Perforce l = None.
Proof.
  intros (Q1 & Q2 & Q3) N N'. unfold line_format. unfold perforce_unified_re, perforce_context_re, perforce_normal_re, perforce_rcs_re.
  rewrite digits_first, rcs_first by assumption. rewrite !text_only by assumption. reflexivity.
Qed.
Lemma pdoc_format d : pdoc_ok ok changing d -> determine_format Perforce (pdoc_clean d) = fmt.
Proof.
  intros [F S AF Q _]. unfold pdoc_clean. destruct (pd_files d) as [|f fs]; [congruence|]. specialize (Q f fs eq_refl).
  inversion_clear F as [|? ? OK _]. cbn [map concat]. unfold pfile_clean at 1. rewrite <- !app_assoc.
  induction Q as [|l ls (QL & _ & NA & NS) Q IH]; cbn [app determine_format].
  - rewrite quiet_perforce; [apply FORMAT; apply OK| |intros [x X]; discriminate|intros [x X]; discriminate].
    split; [intros [x X]; discriminate|]. split; intros; cbn in *; injection H as <- _; [reflexivity|]. cbn in H0. intuition discriminate.
  - rewrite quiet_perforce by assumption. exact IH.
Qed.
Hypothesis PARSER : fmt = Unified /\ hunks = unified_hunks \/ fmt = Context /\ hunks = context_hunks \/ fmt = Normal /\ hunks = normal_hunks.
Lemma perforce_read sort d : (forall l, Permutation (sort l) l) -> pdoc_ok ok changing d ->
  exists o, parse sort (split_lines (pdoc_text text d)) = Ok o /\ po_generator o = Perforce /\ po_format o = fmt /\ po_malformed o = false /\
    exists ms, Permutation (the_models (po_models o)) ms /\ Forall2 (pfile_is is) (pd_files d) ms.
Proof.
  intros HP OK. unfold pdoc_text. rewrite split_whole by now apply pdoc_whole.
  destruct (clean_folded _ _ (pdoc_folded d OK) [] 0) as [n EC].
  destruct (pfiles_forward (pd_files d) (S (length (pdoc_clean d))) (pd_after d) []) as (new & rest & E & F).
  - apply OK.
  - apply OK.
  - destruct OK as [_ SO _ _ R]. destruct (pd_files d) as [|p ps]; [congruence|]. exact (R p ps eq_refl).
  - unfold pdoc_clean. rewrite app_length.
    enough (forall l, (length l <= length (concat (map pfile_clean l)))%nat) as K by (specialize (K (pd_files d)); unfold str, chr in *; lia).
    induction l as [|p l IH]; cbn [map concat length]; [lia|]. rewrite app_length. unfold pfile_clean at 1. rewrite !app_length. cbn [length]. lia.
  - fold (pdoc_clean d) in E. unfold parse, clean_up_crap. rewrite EC, pdoc_generator by exact OK. cbn [bind rev app]. unfold base_parse. rewrite pdoc_format by exact OK.
    destruct PARSER as [[EF EH]|[[EF EH]|[EF EH]]]; rewrite EF, EH in *;
      [unfold parse_unified|unfold parse_context|unfold parse_normal]; cbn [unified_header1_of context_header1_of normal_header_of];
      match goal with |- context [files ?h] => change h with (fun ls => @Ok (option dmodel * list str) (perforce_diff_header ls)) end;
      rewrite E; cbn [bind app]; eexists; (split; [reflexivity|]); cbn [po_generator po_malformed po_format po_models]; repeat (split; [reflexivity|]);
      exists new; (split; [rewrite the_models_sort; apply HP|exact F]).
Qed.
End F.

(** * The three kinds of hunks *)
Lemma unified_listed us m hs : changing_hunks us -> contents m hs -> Forall2 hunk_is us hs -> (0 < length (dm_diffs m))%nat.
Proof.
  intros CH [[H1 H2 H3 H4 _ _] H5] F.
  enough (filter (fun d => negb (is_context d)) (concat (map snd hs)) <> []).
  { destruct (dm_diffs m); [|cbn; lia]. cbn in H3. injection H3 as E. congruence. }
  clear -CH F. unfold changing_hunks in CH. induction F as [|u q us qs HU F IH]; [inversion CH|]. cbn [map concat]. rewrite filter_app.
  inversion CH as [? ? C|? ? C]; subst.
  - destruct HU as (_ & _ & _ & _ & FS & _ & _). intros E. apply app_eq_nil in E as [E _]. clear -C FS E.
    induction FS as [|s d ss ds HS FS IH]; [inversion C|]. cbn in E.
    inversion C as [? ? C'|? ? C']; subst.
    + destruct s as [|r a]; [destruct C'|]. destruct HS as (_ & _ & T). unfold is_context in E.
      destruct r, a; rewrite T in E; discriminate.
    + apply IH; [exact C'|]. destruct (negb (is_context d)); [discriminate|exact E].
  - intros E. apply app_eq_nil in E as [_ E]. now apply IH.
Qed.
Lemma unified_reads : reads hunk_ok hunk_clean hunk_is unified_hunks.
Proof.
  intros us fuel rest m hs OK T L C. apply hunks_forward; auto.
  - intros l ls E ->. destruct (ptail_begins _ T _ _ E) as (c & x & H & _). discriminate.
  - intros l ls E. apply header_match_hunk. intros y ->. destruct (ptail_begins _ T _ _ E) as (c & x & H & [I|[z Z]]).
    + injection H as <- _. cbn in I. intuition discriminate.
    + discriminate.
Qed.
Lemma context_reads : reads chunk_ok chunk_text chunk_is context_hunks.
Proof.
  intros us fuel rest m hs OK T L C. apply chunks_forward; auto.
  - intros l ls E (x & y & -> & I). destruct (ptail_begins _ T _ _ E) as (c & z & H & [J|[u U]]).
    + injection H as <- _. cbn in I, J. intuition congruence.
    + injection U as -> U. discriminate.
  - intros l ls E [x ->]. destruct (ptail_begins _ T _ _ E) as (c & z & H & [J|[u U]]); [|discriminate].
    injection H as <- _. cbn in J. intuition discriminate.
Qed.
Lemma normal_reads : reads cmd_ok cmd_text cmd_is normal_hunks.
Proof.
  intros us fuel rest m hs OK T L C. apply cmds_forward; auto.
  - intros l ls E. destruct (ptail_begins _ T _ _ E) as (c & z & H & [J|[u U]]); split; intros [x X]; rewrite X in *; try discriminate;
      injection H as <- _; cbn in J; intuition discriminate.
  - intros l ls E c x ->. destruct (ptail_begins _ T _ _ E) as (c' & z & H & [J|[u U]]).
    + injection H as <- _. cbn in J. intuition (subst; reflexivity).
    + injection U as -> _. reflexivity.
Qed.
Lemma context_listed us m hs : Forall chunk_ok us -> us <> [] -> contents m hs -> Forall2 chunk_is us hs -> (0 < length (dm_diffs m))%nat.
Proof.
  intros OK SO [[H1 H2 H3 H4 _ _] H5] F.
  enough (filter (fun d => negb (is_context d)) (concat (map snd hs)) <> []).
  { destruct (dm_diffs m); [|cbn; lia]. cbn in H3. injection H3 as E. congruence. }
  destruct F as [|u q us qs HU F]; [congruence|]. inversion_clear OK as [|? ? [_ _ _ _ _ _ CH] _].
  destruct HU as (_ & _ & _ & _ & FS & _ & _). cbn [map concat]. rewrite filter_app. intros E. apply app_eq_nil in E as [E _]. clear -CH FS E.
  induction FS as [|s d ss ds HS FS IH]; [inversion CH|]. cbn in E.
  inversion CH as [? ? C'|? ? C']; subst.
  - destruct s as [|r a]; [destruct C'|]. destruct HS as (_ & _ & T). unfold is_context in E.
    destruct r, a; rewrite T in E; discriminate.
  - apply IH; [exact C'|]. destruct (negb (is_context d)); [discriminate|exact E].
Qed.
Lemma at_text mark x : at_start (T mark) (lit mark ++ x) = true.
Proof. unfold at_start, T. now rewrite s_text. Qed.
Lemma unified_told us rest : changing_hunks us -> determine_format Perforce (concat (map hunk_clean us) ++ rest) = Unified.
Proof.
  intros C. destruct us as [|u us]; [inversion C|]. cbn [map concat hunk_clean hunk_text hd app determine_format line_format].
  match goal with |- context [at_start perforce_unified_re ?x] => assert (at_start perforce_unified_re x = true) as -> end; [|reflexivity].
  apply (at_text "@@").
Qed.
Lemma context_told us rest : us <> [] -> determine_format Perforce (concat (map chunk_text us) ++ rest) = Context.
Proof.
  intros C. destruct us as [|u us]; [congruence|]. cbn [map concat chunk_text app determine_format]. unfold line_format.
  match goal with |- context [at_start perforce_unified_re ?x] => assert (at_start perforce_unified_re x = false) as -> end.
  { apply text_only. intros [y Y]. discriminate. }
  match goal with |- context [at_start perforce_context_re ?x] => assert (at_start perforce_context_re x = true) as -> end; [|reflexivity].
  apply (at_text "***************").
Qed.
Lemma perforce_normal_start n w x m rest : digit_string n -> comma_part w -> In x (lit "acd") -> digit_string m ->
  at_start perforce_normal_re (n ++ w ++ x :: m ++ rest) = true.
Proof.
  intros [N1 N2] HW HX [M1 M2]. apply at_start_lang. exists (n ++ w ++ [x] ++ m ++ []), rest. split.
  - rewrite app_nil_r, <- !app_assoc. reflexivity.
  - unfold perforce_normal_re. constructor; [now apply lang_plus|]. constructor.
    + unfold maybe_comma_digits. destruct HW as [->|(d & -> & D0 & D)]; [apply l_alt1; constructor|]. apply l_alt2.
      constructor; [|now apply lang_plus]. change (lit ",") with ([44%N] ++ []). constructor; [now constructor|constructor].
    + constructor; [|constructor; [now apply lang_plus|apply l_alt1; constructor]]. constructor. apply existsb_exists. exists x. split; [exact HX|apply N.eqb_refl].
Qed.
Lemma normal_told us rest : Forall cmd_ok us -> us <> [] -> determine_format Perforce (concat (map cmd_text us) ++ rest) = Normal.
Proof.
  intros F NE. destruct F as [|c us C F]; [congruence|]. cbn [map concat]. destruct (cmd_first c C) as (x & l & ls & E2 & DX).
  assert (E : line_format Perforce (hd [] (cmd_text c)) = Some Normal); [|rewrite E2 in *; cbn [app determine_format hd] in *; rewrite E; reflexivity].
  assert (E : at_start perforce_normal_re (hd [] (cmd_text c)) = true).
  { destruct C as [[S1 S2] _ CO CN]. clear E2.
    destruct c as [n m a|n m r|n m r a]; cbn [cmd_text hd old_number new_number old_lines new_lines cmd_type] in *.
    - destruct (range_shape m (count a)) as (w & -> & HW); [apply S2|apply count_pos, CN; discriminate|]. rewrite <- app_assoc.
      apply (perforce_normal_start (number n) [] 97%N (number m) (w ++ [NL])); [now apply digit_string_number|now left|now left|now apply digit_string_number].
    - destruct (range_shape n (count r)) as (w & -> & HW); [apply S1|apply count_pos, CO; discriminate|]. rewrite <- app_assoc.
      apply (perforce_normal_start (number n) w 100%N (number m) [NL]); [now apply digit_string_number|exact HW|cbn; tauto|now apply digit_string_number].
    - destruct (range_shape n (count r)) as (w & -> & HW); [apply S1|apply count_pos, CO; discriminate|]. rewrite <- app_assoc.
      destruct (range_shape m (count a)) as (w2 & -> & HW2); [apply S2|apply count_pos, CN; discriminate|]. rewrite <- (app_assoc (number m)).
      apply (perforce_normal_start (number n) w 99%N (number m) (w2 ++ [NL])); [now apply digit_string_number|exact HW|cbn; tauto|now apply digit_string_number]. }
  unfold line_format. rewrite E. rewrite E2. cbn [hd]. unfold perforce_unified_re, perforce_context_re.
  rewrite !text_only; [reflexivity| |]; intros [y Y]; injection Y as -> _; discriminate.
Qed.
Lemma chunk_folded u : chunk_ok u -> folded (chunk_text u) (chunk_text u).
Proof.
  intros OK. apply folded_same. eapply Forall_impl; [|exact (chunk_own u OK)]. intros l H.
  apply (own_not "\ No newline" BSL); [reflexivity|vm_compute; intuition discriminate|exact H].
Qed.
Lemma cmd_folded u : cmd_ok u -> folded (cmd_text u) (cmd_text u).
Proof.
  intros OK. apply folded_same. eapply Forall_impl; [|exact (cmd_lines u OK)]. intros l [_ H].
  apply (cmd_head_not "\ No newline" l BSL); auto; try reflexivity; try discriminate. intros [x X]; discriminate.
Qed.
