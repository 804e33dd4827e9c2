(** C81: normal diffs printed by CVS. *)
From Coq Require Import String Permutation.
From Verif Require Import Base QtStr Lev Diff Regex Patterns Parser SpecPatch SpecParse SpecText SpecUnified SpecNormal SpecCvsNormal
  PropsParse PRegex PHeaders PFileHeads PUnifiedDoc PAnyInput PropsText PUnifiedPrint PUnifiedRead PNormal PNormalDoc PContextDoc PropsUnified PropsNormal.
Local Open Scope Z_scope.

Lemma between_no p l : In p ["Index: "; "==== "; "--- "; "< "; "> "; "\ No newline"]%string -> between l -> ~ begins p l.
Proof. intros I [_ _ F]. rewrite Forall_forall in F. apply F. exact I. Qed.
Lemma index_match n : ~ In NL n -> exists c, full_match cvs_normal_header (index_line n) = Some c /\ captured 1 c = n.
Proof.
  intros H. eexists. split.
  - unfold full_match, cvs_normal_header, index_line. rewrite m_seq. unfold T. rewrite s_text. apply any_rest; [exact H|reflexivity].
  - reflexivity.
Qed.
Lemma search_skips pre rest : Forall (fun l => ~ begins "Index: " l) pre -> normal_diff_header_search true (pre ++ rest) = normal_diff_header_search true rest.
Proof. induction 1 as [|l ls H F IH]; cbn [normal_diff_header_search app]; [reflexivity|]. unfold cvs_normal_header at 1. rewrite line_no by assumption. exact IH. Qed.
Lemma search_index n rest : ~ In NL n -> exists m, normal_diff_header_search true (index_line n :: rest) = (Some m, rest) /\ contents m [] /\ named m n n [] [].
Proof.
  intros H. destruct (index_match n H) as (c & M & C). cbn [normal_diff_header_search]. rewrite M, C. edestruct set_files_named as [N CC]; [reflexivity|]. eauto.
Qed.
Lemma cmds_no_index cs : Forall cmd_ok cs -> Forall (fun l => ~ begins "Index: " l) (concat (map cmd_text cs)).
Proof.
  intros F. eapply Forall_impl; [|exact (cmds_lines cs F)]. intros l [_ H]. apply (cmd_head_not "Index: " l 73%N); auto; try reflexivity; try discriminate. intros [u U]; discriminate.
Qed.
Lemma betweens_no_index ls : Forall between ls -> Forall (fun l => ~ begins "Index: " l) ls.
Proof. intros F. eapply Forall_impl; [|exact F]. intros l. apply between_no. cbn. tauto. Qed.
Definition file_start (ls : list str) : Prop := forall l ls', ls = l :: ls' -> between l \/ begins "Index: " l.
Lemma file_start_ends ls : file_start ls -> ends_command ls /\ no_command ls.
Proof.
  intros H. split.
  - intros l ls' E. destruct (H l ls' E) as [A|[x ->]]; [split; apply between_no; auto; cbn; tauto|split; intros [y Y]; discriminate].
  - intros l ls' E c x ->. destruct (H _ _ E) as [[_ (_ & Q & _) _]|[y Y]]; [eapply Q; eauto|]. injection Y as -> _. reflexivity.
Qed.
Lemma doc_start fs after : Forall between after -> Forall cfile_ok fs -> file_start (cdoc_lines fs after).
Proof.
  intros A F l ls E. unfold cdoc_lines in E. destruct F as [|f fs [B _ _ _ _] F]; cbn [map concat app] in E.
  - destruct A; [discriminate|]. injection E as -> _. auto.
  - unfold cfile_text in E. destruct B as [|b bs B1 B2]; cbn [app] in E; injection E as <- _; [right; eexists; reflexivity|auto].
Qed.
Lemma cfiles_forward fs : forall fuel pre after ms bad, Forall (fun l => ~ begins "Index: " l) pre -> Forall cfile_ok fs -> Forall between after -> (length fs < fuel)%nat ->
  exists new bad' rest, files (normal_head_of CVSDiff) (hunk_fuel normal_hunks) (normal_header_of CVSDiff) fuel
      (pre ++ cdoc_lines fs after) ms bad = Ok (ms ++ new, bad', rest) /\ Forall2 cfile_is (filter bare fs) new.
Proof.
  induction fs as [|f fs IH]; intros fuel pre after ms bad NP OK BA L; (destruct fuel as [|fuel]; [cbn in L; lia|]); cbn [files]; unfold normal_head_of at 1.
  - exists [], bad, []. rewrite app_nil_r. split; [|constructor]. unfold cdoc_lines. cbn [map concat app].
    rewrite search_skips, <- (app_nil_r after), search_skips by auto using betweens_no_index. reflexivity.
  - inversion_clear OK as [|? ? OKf OK']. destruct OKf as [CB CN CW CC CS].
    replace (pre ++ cdoc_lines (f :: fs) after) with ((pre ++ cf_before f) ++ index_line (cf_name f) :: cf_between f ++ concat (map cmd_text (cf_cmds f)) ++ cdoc_lines fs after).
    2:{ unfold cdoc_lines. cbn [map concat]. unfold cfile_text. rewrite <- !app_assoc. reflexivity. }
    rewrite search_skips by (apply Forall_app; auto using betweens_no_index).
    destruct (search_index (cf_name f) (cf_between f ++ concat (map cmd_text (cf_cmds f)) ++ cdoc_lines fs after) CN) as (m0 & E0 & C0 & N0). rewrite E0. cbn [bind].
    unfold bare. cbn [filter]. destruct (cf_between f) as [|b bs] eqn:EB.
    + cbn [app]. destruct (file_start_ends _ (doc_start fs after BA OK')) as [EC NC].
      destruct (cmds_forward (cf_cmds f) (S (length (concat (map cmd_text (cf_cmds f)) ++ cdoc_lines fs after))) (cdoc_lines fs after) m0 [])
        as (m & ps & E & C & FP & W); [exact CC|exact EC|exact NC| |exact C0|].
      { rewrite app_length. pose proof (cmds_count (cf_cmds f) CC). unfold str, chr in *. lia. }
      assert (CA : commands_are (cf_cmds f) m) by (exists ps; auto).
      assert (PI : cfile_is f m) by (split; [eapply named_contents; eauto|exact CA]).
      destruct (IH fuel [] after (ms ++ [m]) (bad || bad_next_header (normal_header_of CVSDiff) (cdoc_lines fs after))%bool ltac:(constructor) OK' BA ltac:(cbn in L; lia))
        as (new & bad' & rest & EF & FN). cbn [app] in EF.
      exists (m :: new), bad', rest. split; [|constructor; assumption].
      unfold hunk_fuel at 1. rewrite E. cbn [bind]. unfold append_model. pose proof (commands_listed _ _ CS CC CA) as LI. apply Nat.ltb_lt in LI. rewrite LI.
      rewrite EF, <- app_assoc. reflexivity.
    + assert (NB : no_command ((b :: bs) ++ concat (map cmd_text (cf_cmds f)) ++ cdoc_lines fs after)).
      { intros l ls E c x ->. injection E as -> _. inversion_clear CW as [|? ? B1 _]. destruct B1 as [_ (_ & Q & _) _]. eapply Q; eauto. }
      unfold hunk_fuel at 1. cbn [normal_hunks]. rewrite no_command_at by exact NB. cbn [bind].
      assert (AM : append_model ms m0 = ms). { unfold append_model. destruct C0 as [[_ _ _ _ H3 _] _]. cbn in H3. rewrite H3. reflexivity. }
      rewrite AM, app_assoc. apply IH; auto; [|cbn in L; lia]. apply Forall_app. auto using betweens_no_index, cmds_no_index.
Qed.
Lemma cdoc_all (P : str -> Prop) fs after : Forall cfile_ok fs -> Forall between after ->
  (forall l, between l -> P l) -> (forall n, ~ In NL n -> P (index_line n)) -> (forall l, whole_line l -> cmd_head l -> P l) -> Forall P (cdoc_lines fs after).
Proof.
  intros F A H1 H2 H3. unfold cdoc_lines. apply Forall_app. split; [|eapply Forall_impl; [|exact A]; exact H1].
  apply Forall_concat, Forall_map. eapply Forall_impl; [|exact F]. intros f [CB CN CW CC CS]. unfold cfile_text. apply Forall_app. split; [eapply Forall_impl; [|exact CB]; exact H1|].
  cbn [app]. constructor; [auto|]. apply Forall_app. split; [eapply Forall_impl; [|exact CW]; exact H1|]. eapply Forall_impl; [|apply cmds_lines; exact CC]. cbn. intros l []. auto.
Qed.
(** Every normal diff printed by CVS: a file is read, under its name and with its commands, exactly when its commands follow the
    name at once; the commands of the other files are skipped. The diff is always reported as malformed. *)
Theorem C81_cvs_normal_partial :
  forall sort fs after, (forall l, Permutation (sort l) l) -> fs <> [] -> Forall cfile_ok fs -> Forall between after ->
  exists o ms, parse sort (split_lines (concat (cdoc_lines fs after))) = Ok o /\ po_generator o = CVSDiff /\ po_format o = Normal /\
    Permutation (the_models (po_models o)) ms /\ Forall2 cfile_is (filter bare fs) ms /\ po_malformed o = true.
Proof.
  intros sort fs after HP NE OK AF.
  assert (AL : forall P : str -> Prop, (forall l, between l -> P l) -> (forall n, ~ In NL n -> P (index_line n)) -> (forall l, whole_line l -> cmd_head l -> P l) ->
    Forall P (cdoc_lines fs after)) by (intros P; now apply cdoc_all).
  rewrite split_whole.
  2:{ apply AL; [intros l [(t & -> & H) _ _]; exists t; auto| |auto]. intros n H. exists (lit "Index: " ++ n). split; [unfold index_line; now rewrite app_assoc|]. apply no_nl_app; [apply no_nl_lit; reflexivity|exact H]. }
  assert (G : determine_generator (cdoc_lines fs after) = CVSDiff).
  { apply index_line_generator.
    - apply AL; [intros l; apply between_no; cbn; tauto|intros n _ [x X]; discriminate|]. intros l _ H. apply (cmd_head_not "==== " l 61%N); auto; try reflexivity; try discriminate. intros [u U]; discriminate.
    - destruct OK as [|f fs OKf OK]; [congruence|]. unfold cdoc_lines. cbn [map concat]. unfold cfile_text. rewrite <- !app_assoc. apply Exists_app. right. cbn [app]. apply Exists_cons_hd. eexists. reflexivity. }
  destruct (clean_same (cdoc_lines fs after)) as [n EC].
  { apply AL; [intros l; apply (between_no "\ No newline"); cbn; tauto|intros n _ [x X]; discriminate|]. intros l _ H. apply (cmd_head_not "\ No newline" l BSL); auto; try reflexivity; try discriminate. intros [u U]; discriminate. }
  assert (FM : determine_format CVSDiff (cdoc_lines fs after) = Normal).
  { destruct OK as [|f fs [CB CN CW CC CS] OK]; [congruence|]. unfold cdoc_lines. cbn [map concat]. unfold cfile_text. rewrite <- !app_assoc.
    assert (BF : forall ls rest, Forall between ls -> determine_format CVSDiff (ls ++ rest) = determine_format CVSDiff rest).
    { clear. intros ls rest F. induction F as [|l ls [_ Q B] F IH]; [reflexivity|]. cbn [app determine_format]. rewrite quiet_format; [exact IH|discriminate|exact Q|]. rewrite Forall_forall in B. apply B. cbn. tauto. }
    rewrite BF by assumption. cbn [app determine_format]. rewrite quiet_format; [|discriminate| |intros [x X]; discriminate].
    2:{ split; [intros [x X]; discriminate|]. split; [intros c x X; injection X as <- _; reflexivity|intros c d x X _; injection X as <- <- _; reflexivity]. }
    rewrite BF by assumption. apply cmds_format; [exact CS|exact CC|discriminate]. }
  destruct (cfiles_forward fs (S (length (cdoc_lines fs after))) [] after [] false ltac:(constructor) OK AF) as (new & bad & rest & E & FN).
  { unfold cdoc_lines. rewrite app_length. enough (length fs <= length (concat (map cfile_text fs)))%nat by (unfold str, chr in *; lia).
    clear. induction fs as [|f fs IH]; cbn [map concat length]; [lia|]. rewrite app_length. unfold cfile_text at 1. rewrite !app_length. cbn [length]. unfold str, chr in *. lia. }
  cbn [app] in E. unfold parse. rewrite G, EC. cbn [bind]. unfold base_parse. rewrite FM. unfold parse_normal. rewrite E. cbn [bind].
  unfold hunk_fuel. cbn [normal_hunks]. rewrite no_command_at by (apply file_start_ends; now apply doc_start). cbn [bind].
  assert (append_model new (new_model [] []) = new) as -> by reflexivity.
  eexists. exists new. split; [reflexivity|]. cbn [po_generator po_malformed po_format po_models]. split; [reflexivity|]. split; [reflexivity|].
  split; [rewrite the_models_sort; apply HP|]. split; [exact FN|].
  assert (K : cdoc_lines fs after <> []).
  { destruct OK as [|f fs OKf OK]; [congruence|]. unfold cdoc_lines. cbn [map concat]. unfold cfile_text. destruct (cf_before f); discriminate. }
  destruct (cdoc_lines fs after); [congruence|]. apply orb_true_r.
Qed.
Print Assumptions C81_cvs_normal_partial.

(** What CVS prints is never read: the full property is false of every such diff. *)
Definition cvs_rule : list str := map nl ["==================================================================="; "RCS file: /cvs/x.c,v"; "retrieving revision 1.1"; "diff -r1.1 x.c"]%string.
Definition sample_cfiles : list cfile := [mk_cf [] (lit "x.c") cvs_rule [NChg 3 3 [lit "a"] [lit "b"]]; mk_cf [nl "cvs diff: Diffing ."] (lit "y z.c") [] [NAdd 1 2 [lit "new"]]].
Example C81_example : Forall cfile_ok sample_cfiles /\ filter bare sample_cfiles = tl sample_cfiles /\
  cdoc_lines sample_cfiles [] = map nl ["Index: x.c"; "==================================================================="; "RCS file: /cvs/x.c,v"; "retrieving revision 1.1"; "diff -r1.1 x.c";
    "3c3"; "< a"; "---"; "> b"; "cvs diff: Diffing ."; "Index: y z.c"; "1a2"; "> new"]%string.
Proof.
  split; [|split; vm_compute; reflexivity].
  assert (B : forall p s, starts_with (lit p) s = false -> ~ begins p s).
  { intros p s H [x E]. rewrite E in H. rewrite (proj2 (PHeaders.starts_with_app _ _) (ex_intro _ x eq_refl)) in H. discriminate. }
  assert (BT : forall s, existsb (N.eqb NL) (lit s) = false -> existsb (fun p => starts_with (lit p) (nl s)) ["*** "; "Index: "; "==== "; "--- "; "< "; "> "; "\ No newline"]%string = false ->
    match lit s with c :: d :: _ => (is_digit c || is_digit d)%bool = false | _ => False end -> between (nl s)).
  { intros s H1 H2 H3. cbn [existsb] in H2. repeat (apply orb_false_elim in H2 as [? H2]). split.
    - exists (lit s). split; [reflexivity|]. intros I. rewrite (proj2 (existsb_exists _ _) (ex_intro _ NL (conj I eq_refl))) in H1. discriminate.
    - unfold nl in *. destruct (lit s) as [|c0 [|d0 w]]; try contradiction. apply orb_false_elim in H3 as [D1 D2]. split; [now apply B|]. split; [intros c x E; injection E as <- _; exact D1|intros c d x E _; injection E as _ <- _; exact D2].
    - repeat (apply Forall_cons; [now apply B|]). constructor. }
  assert (N : forall s, existsb (N.eqb NL) (lit s) = false -> ~ In NL (lit s)).
  { intros s H I. rewrite (proj2 (existsb_exists _ _) (ex_intro _ NL (conj I eq_refl))) in H. discriminate. }
  repeat apply Forall_cons; try apply Forall_nil.
  - split; cbn [cf_before cf_name cf_between cf_cmds]; [constructor|apply N; reflexivity| |repeat constructor; try (cbv; intuition congruence)|discriminate].
    unfold cvs_rule. cbn [map]. repeat (apply Forall_cons; [apply BT; reflexivity|]). constructor.
  - split; cbn [cf_before cf_name cf_between cf_cmds]; [|apply N; reflexivity|constructor|repeat constructor; try (cbv; intuition congruence)|discriminate].
    repeat (apply Forall_cons; [apply BT; reflexivity|]). constructor.
Qed.
Theorem C81_cvs_normal_refuted :
  forall sort fs after, (forall l, Permutation (sort l) l) -> fs <> [] -> Forall cfile_ok fs -> Forall between after ->
  (forall f, In f fs -> cf_between f <> []) ->
  exists o, parse sort (split_lines (concat (cdoc_lines fs after))) = Ok o /\ po_models o = None /\ po_malformed o = true.
Proof.
  intros sort fs after HP NE OK AF H. destruct (C81_cvs_normal_partial sort fs after HP NE OK AF) as (o & ms & E & G & FM & P & F & M). exists o. split; [exact E|]. split; [|exact M].
  assert (K : filter bare fs = []). { clear -H. induction fs as [|f fs IH]; [reflexivity|]. cbn. rewrite IH by auto with datatypes. specialize (H f (or_introl eq_refl)). unfold bare. destruct (cf_between f); [congruence|reflexivity]. }
  rewrite K in F. inversion F. subst. apply Permutation_sym, Permutation_nil in P. unfold parse in E. 
  destruct (clean_up_crap _) as [[ls n]| |]; cbn [bind] in E; try discriminate. destruct (base_parse _ _ _) as [[m b]| |] eqn:EB; cbn [bind] in E; try discriminate. injection E as <-. cbn [po_models] in *.
  destruct m as [[|x m]|]; [|discriminate P|reflexivity]. exfalso. clear -EB. unfold base_parse in EB. destruct (determine_format _ _); try discriminate;
    match type of EB with bind ?r _ = _ => destruct r as [[ms b']| |]; cbn [bind] in EB; try discriminate; destruct (sort ms); discriminate end.
Qed.
Print Assumptions C81_cvs_normal_refuted.
