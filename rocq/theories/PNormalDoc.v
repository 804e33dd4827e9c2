(** Reading printed normal diffs of one and of several files. *)
From Coq Require Import String Permutation.
From Verif Require Import Base QtStr Lev Diff Regex Patterns Parser SpecEdit SpecInline SpecPatch SpecParse SpecText SpecUnified SpecNormal
  SpecRegex PRegex PRegexLang PStar PHistory PParse PUnified PHeaders PFileHeads PUnifiedDoc PAnyInput PropsParse PropsText PUnifiedPrint PUnifiedRead PNormal.
Local Open Scope Z_scope.

(** * The header line *)
Definition names_re : re := RGroup 1 (star any) ~~ plus (is SP) ~~ RGroup 2 (star any) ~~ nl.
Lemma names_forward o n c : plain_name o -> plain_name n ->
  matches names_re kend (o ++ lit " " ++ n ++ [NL]) c = Some ((2%nat, n) :: (1%nat, o) :: c).
Proof.
  intros (O1 & O2 & O3) (N1 & N2 & N3). unfold names_re. rewrite m_seq, m_group. unfold star at 1, any at 1.
  apply m_star_take; [now apply not_nl_any| |].
  - rewrite group_text, m_seq. unfold is. change (lit " " ++ n ++ [NL]) with ([SP] ++ n ++ [NL]).
    apply s_plus_longest; [discriminate|reflexivity| |].
    { destruct n as [|x n]; [congruence|]. cbn [app]. apply N.eqb_neq. intros E. apply N2. left. auto. }
    apply any_rest; [exact N3|reflexivity].
  - intros x w2 rest2 E _. cbn [lit Ascii.N_of_ascii app] in E. injection E as _ E.
    rewrite m_seq. unfold plus. rewrite m_seq. unfold is at 1. rewrite m_chr. destruct rest2 as [|y rest2]; [reflexivity|].
    destruct (N.eqb_spec SP y) as [<-|]; [|reflexivity]. exfalso.
    assert (I : In SP (n ++ [NL])) by (rewrite E; apply in_or_app; right; left; reflexivity).
    apply in_app_or in I as [I|[I|[]]]; [auto|discriminate].
Qed.
Definition option_re : re := RAlt (T "-") (T "--") ~~ plus (RChr option_chr) ~~ is SP.
Lemma option_class x : option_char x <-> option_chr x = true.
Proof.
  unfold option_char, option_chr, is_digit, QUOTE. rewrite !orb_true_iff, !andb_true_iff, !N.leb_le, !N.eqb_eq. lia.
Qed.
Lemma option_classes x : Forall option_char x <-> forallb option_chr x = true.
Proof. rewrite forallb_forall, Forall_forall. split; intros H y I; apply option_class, H, I. Qed.
Lemma option_forward (R : Type) o (k : str -> caps -> option R) rest c r : diff_option o -> k rest c = Some r ->
  matches option_re k ((o ++ lit " ") ++ rest) c = Some r.
Proof.
  intros (x & X1 & X2 & HO) K. apply option_classes in X2. unfold option_re. rewrite m_seq, m_alt.
  assert (G : matches (plus (RChr option_chr) ~~ is SP) k (x ++ lit " " ++ rest) c = Some r).
  { rewrite m_seq. apply s_plus_longest; [exact X1|exact X2|reflexivity|]. change (lit " " ++ rest) with (SP :: rest). rewrite s_is. exact K. }
  destruct HO as [->| ->]; rewrite <- !app_assoc.
  - unfold T. rewrite s_text, G. reflexivity.
  - unfold T. change (lit "--" ++ x ++ lit " " ++ rest) with (lit "-" ++ (45%N :: x ++ lit " " ++ rest)) at 1. rewrite s_text.
    replace (matches (plus (RChr option_chr) ~~ is SP) k (45%N :: x ++ lit " " ++ rest) c) with (@None R).
    2:{ symmetry. rewrite m_seq. unfold plus. rewrite m_seq, m_chr. reflexivity. }
    rewrite s_text. exact G.
Qed.
Lemma no_option (R : Type) (k : str -> caps -> option R) s c : ~ begins "-" s -> matches option_re k s c = None.
Proof.
  intros N. unfold option_re. rewrite m_seq, m_alt. unfold T. rewrite !m_text.
  assert (starts_with (lit "-") s = false) as -> by (apply starts_false; intros x ->; apply N; eexists; reflexivity).
  assert (starts_with (lit "--") s = false) as ->; [|reflexivity].
  apply starts_false. intros x ->. apply N. exists (lit "-" ++ x). reflexivity.
Qed.
Lemma options_forward (R : Type) (k : str -> caps -> option R) opts s c r : Forall diff_option opts -> ~ begins "-" s -> k s c = Some r ->
  matches (star option_re) k (concat (map (fun o => o ++ lit " ") opts) ++ s) c = Some r.
Proof.
  intros F N K. unfold star. induction F as [|o opts O F IH]; cbn [map concat app]; rewrite m_star_round.
  - rewrite no_option by assumption. exact K.
  - rewrite <- app_assoc.
    erewrite option_forward; [reflexivity|exact O|].
    match goal with |- (if ?b then _ else _) = _ => replace b with true end; [exact IH|].
    symmetry. apply Nat.ltb_lt. rewrite (app_length (o ++ lit " ")), (app_length o). cbn [lit length]. lia.
Qed.
Lemma nheader_forward f : nfile_ok f -> exists c, full_match normal_diff_header (nheader_text f) = Some c /\
  captured 1 c = nf_old f /\ captured 2 c = nf_new f.
Proof.
  intros [_ O [NO NN] ND _ _]. eexists. split.
  - unfold full_match, normal_diff_header, nheader_text. rewrite m_seq. unfold T at 1. rewrite s_text, m_seq.
    apply options_forward; [exact O| |].
    { destruct NO as (O1 & _). destruct (nf_old f) as [|x y]; [congruence|]. intros [u E]. apply ND. injection E as -> _. exists y. reflexivity. }
    rewrite m_seq, m_alt, m_eps. fold names_re. fold kend. rewrite names_forward by assumption. reflexivity.
  - split; reflexivity.
Qed.
Lemma no_nheader l : ~ begins "diff " l -> full_match normal_diff_header l = None.
Proof. apply line_no. Qed.

(** * Whole lines, no markers *)
Lemma range_no_nl a n : 0 <= a -> 1 <= n -> ~ In NL (range_text a n).
Proof.
  intros A B. destruct (range_shape a n A B) as (w & -> & H). apply no_nl_app; [|now apply comma_no_nl].
  apply digits_no_nl. now apply number_digits.
Qed.
Lemma number_no_nl' n : 0 <= n -> ~ In NL (number n).
Proof. intros H. apply digits_no_nl. now apply number_digits. Qed.
Lemma cmd_line_whole c t : c <> NL -> ~ In NL t -> whole_line (cmd_line c t).
Proof. intros N H. exists (c :: SP :: t). split; [reflexivity|]. intros [E|[E|I]]; [congruence|discriminate|auto]. Qed.
Definition cmd_head (l : str) : Prop := exists x y, l = x :: y /\ (is_digit x = true \/ x = 60%N \/ x = 62%N \/ (x = 45%N /\ l = lit "---" ++ [NL])).
Lemma cmd_lines c : cmd_ok c -> Forall (fun l => whole_line l /\ cmd_head l) (cmd_text c).
Proof.
  intros OK. pose proof (cmd_first c OK) as (x & l & ls & E & D). destruct OK as [[[S1 _] [S2 _]] CL CO CN].
  apply Forall_app in CL as [CL1 CL2].
  assert (A : forall ch ts, ch = 60%N \/ ch = 62%N -> Forall (fun t => ~ In NL t) ts -> Forall (fun l => whole_line l /\ cmd_head l) (map (cmd_line ch) ts)).
  { intros ch ts H F. apply Forall_map. eapply Forall_impl; [|exact F]. intros t N. cbn beta. split; [apply cmd_line_whole; [|exact N]; intros ->; destruct H; discriminate|].
    exists ch, (SP :: t ++ [NL]). split; [reflexivity|tauto]. }
  assert (H : whole_line (x :: l)).
  { destruct c as [n m a|n m r|n m r a]; cbn [cmd_text old_number new_number old_lines new_lines cmd_type] in *; injection E as E _; rewrite <- E.
    - exists (number n ++ lit "a" ++ range_text m (count a)). split; [now rewrite <- !app_assoc|].
      repeat apply no_nl_app; [now apply number_no_nl'|apply no_nl_lit; reflexivity|apply range_no_nl; [exact S2|apply count_pos, CN; discriminate]].
    - exists (range_text n (count r) ++ lit "d" ++ number m). split; [now rewrite <- !app_assoc|].
      repeat apply no_nl_app; [apply range_no_nl; [exact S1|apply count_pos, CO; discriminate]|apply no_nl_lit; reflexivity|now apply number_no_nl'].
    - exists (range_text n (count r) ++ lit "c" ++ range_text m (count a)). split; [now rewrite <- !app_assoc|].
      repeat apply no_nl_app; [apply range_no_nl; [exact S1|apply count_pos, CO; discriminate]|apply no_nl_lit; reflexivity|apply range_no_nl; [exact S2|apply count_pos, CN; discriminate]]. }
  rewrite E. constructor; [split; [exact H|exists x, l; auto]|].
  destruct c as [n m a|n m r|n m r a]; cbn [cmd_text old_lines new_lines] in *; injection E as _ <-; auto.
  apply Forall_app. split; [auto|]. constructor; [|auto]. split.
  - exists (lit "---"). split; [reflexivity|]. apply no_nl_lit. reflexivity.
  - exists 45%N, (lit "--" ++ [NL]). split; [reflexivity|]. right. right. right. auto.
Qed.
Lemma cmds_lines cs : Forall cmd_ok cs -> Forall (fun l => whole_line l /\ cmd_head l) (concat (map cmd_text cs)).
Proof. intros F. apply Forall_concat. apply Forall_map. eapply Forall_impl; [|exact F]. exact cmd_lines. Qed.
Lemma cmd_head_not p l x : lit p = x :: tl (lit p) -> is_digit x = false -> x <> 60%N -> x <> 62%N -> ~ begins p (lit "---" ++ [NL]) -> cmd_head l -> ~ begins p l.
Proof.
  intros E D A B C (y & z & -> & [H|[->|[->|[-> H]]]]) [u U].
  - rewrite E in U. injection U as -> _. congruence.
  - rewrite E in U. injection U as <- _. congruence.
  - rewrite E in U. injection U as <- _. congruence.
  - apply C. rewrite <- H, U. eexists. reflexivity.
Qed.
Lemma split_whole ls : Forall whole_line ls -> split_lines (concat ls) = ls.
Proof. intros H. apply C01_split_lossless. now apply lines_of_whole. Qed.
Lemma clean_same ls : Forall (fun l => ~ no_newline_marker l) ls -> exists n, clean_up_crap ls = Ok (ls, n).
Proof. intros H. apply folded_same in H. destruct (clean_folded _ _ H [] 0) as [n E]. exists n. exact E. Qed.
Lemma marker_begins l : no_newline_marker l <-> begins "\ No newline" l.
Proof. reflexivity. Qed.
Lemma generator_plain ls : Forall (fun l => ~ begins "==== " l /\ ~ begins "Index: " l) ls -> determine_generator ls = DiffDiff.
Proof.
  intros H. apply generator_of; eapply Forall_impl; [|exact H| |exact H]; cbn; tauto.
Qed.

(** * Format *)
(** * Format *)
Lemma lang_star_chr g p w : forallb p w = true -> lang (RStar g (RChr p)) w.
Proof.
  induction w as [|x w IH]; intros H; [constructor|]. cbn in H. apply andb_prop in H as [H1 H2].
  change (x :: w) with ([x] ++ w). constructor; [now constructor|auto].
Qed.
Lemma lang_plus p w : w <> [] -> forallb p w = true -> lang (plus (RChr p)) w.
Proof.
  intros N H. destruct w as [|x w]; [congruence|]. cbn in H. apply andb_prop in H as [H1 H2].
  change (x :: w) with ([x] ++ w). constructor; [now constructor|now apply lang_star_chr].
Qed.
Lemma normal_start n w x m rest : digit_string n -> comma_part w -> In x (lit "acd") -> digit_string m ->
  at_start normal_re (n ++ w ++ x :: m ++ rest) = true.
Proof.
  intros [N1 N2] HW HX [M1 M2]. apply at_start_lang. exists (n ++ w ++ [x] ++ m ++ []), rest. split.
  - rewrite app_nil_r, <- !app_assoc. reflexivity.
  - unfold normal_re. constructor; [now apply lang_plus|]. constructor.
    + apply lang_star_chr. destruct HW as [->|(d & -> & _ & D)]; [reflexivity|]. cbn [lit Ascii.N_of_ascii app forallb].
      rewrite forallb_forall in D. apply andb_true_intro. split; [reflexivity|]. apply forallb_forall. intros y I. rewrite (D y I). reflexivity.
    + constructor; [|constructor; [now apply lang_plus|constructor]]. constructor. apply existsb_exists. exists x. split; [exact HX|apply N.eqb_refl].
Qed.
Lemma cmd_format c g : cmd_ok c -> g <> Perforce -> line_format g (hd [] (cmd_text c)) = Some Normal.
Proof.
  intros [[S1 S2] _ CO CN] G. unfold line_format.
  assert (E : at_start normal_re (hd [] (cmd_text c)) = true); [|destruct g; [rewrite E; reflexivity|rewrite E; reflexivity|congruence]].
  destruct c as [n m a|n m r|n m r a]; cbn [cmd_text hd old_number new_number old_lines new_lines cmd_type] in *.
  - destruct (range_shape m (count a)) as (w & -> & HW); [apply S2|apply count_pos, CN; discriminate|]. rewrite <- app_assoc.
    apply (normal_start (number n) [] 97%N (number m) (w ++ [NL])); [now apply digit_string_number|now left|now left|now apply digit_string_number].
  - destruct (range_shape n (count r)) as (w & -> & HW); [apply S1|apply count_pos, CO; discriminate|]. rewrite <- app_assoc.
    apply (normal_start (number n) w 100%N (number m) [NL]); [now apply digit_string_number|exact HW|cbn; tauto|now apply digit_string_number].
  - destruct (range_shape n (count r)) as (w & -> & HW); [apply S1|apply count_pos, CO; discriminate|]. rewrite <- app_assoc.
    destruct (range_shape m (count a)) as (w2 & -> & HW2); [apply S2|apply count_pos, CN; discriminate|]. rewrite <- (app_assoc (number m)).
    apply (normal_start (number n) w 99%N (number m) (w2 ++ [NL])); [now apply digit_string_number|exact HW|cbn; tauto|now apply digit_string_number].
Qed.
Lemma cmds_format cs rest g : cs <> [] -> Forall cmd_ok cs -> g <> Perforce -> determine_format g (concat (map cmd_text cs) ++ rest) = Normal.
Proof.
  intros N F G. destruct F as [|c cs C F]; [congruence|]. cbn [map concat]. pose proof (cmd_format c g C G) as E.
  destruct (cmd_first c C) as (x & l & ls & E2 & _). rewrite E2 in *. cbn [app determine_format hd] in *. rewrite E. reflexivity.
Qed.
(** * One file without header *)
Lemma no_header_search ls : Forall (fun l => ~ begins "diff " l) ls -> normal_diff_header_search false ls = (None, []).
Proof. induction 1 as [|l ls H F IH]; cbn [normal_diff_header_search]; [reflexivity|]. rewrite no_nheader by assumption. exact IH. Qed.
Lemma cmds_count cs : Forall cmd_ok cs -> (length cs <= length (concat (map cmd_text cs)))%nat.
Proof.
  induction 1 as [|c cs C F IH]; cbn [map concat length]; [lia|]. rewrite app_length. destruct (cmd_first c C) as (x & l & ls & -> & _). cbn [length]. lia.
Qed.
Lemma commands_listed cs m : cs <> [] -> Forall cmd_ok cs -> commands_are cs m -> (0 < length (dm_diffs m))%nat.
Proof.
  intros N F (hs & [[H1 H2 H3 H4 _ _] H5] & F2). destruct F2 as [|c p cs ps HC F2]; [congruence|].
  destruct HC as (_ & _ & _ & _ & d & E & T & _). cbn [map concat filter] in H3. rewrite E in H3. cbn [app filter] in H3.
  assert (negb (is_context d) = true) as K by (unfold is_context; rewrite T; destruct c; reflexivity).
  rewrite K in H3. destruct (dm_diffs m); [discriminate|cbn; lia].
Qed.
Lemma empty_contents : contents (new_model [] []) [] /\ named (new_model [] []) [] [] [] [].
Proof.
  destruct (new_model_named [] [] _ eq_refl) as (A1 & A2 & A3 & A4 & A5 & A6 & A7 & A8 & A9). split; [exact A5|split; auto].
Qed.
Lemma one_permuted {A} (x : A) l : Permutation l [x] -> l = [x].
Proof. intros H. apply Permutation_length_1_inv. now apply Permutation_sym. Qed.
Lemma single_normal sort cs : (forall l, Permutation (sort l) l) -> cs <> [] -> Forall cmd_ok cs ->
  exists o m, parse sort (split_lines (concat (concat (map cmd_text cs)))) = Ok o /\ po_malformed o = false /\ po_format o = Normal /\
    po_models o = Some [m] /\ named m [] [] [] [] /\ commands_are cs m.
Proof.
  intros HP N F. pose proof (cmds_lines cs F) as CL.
  rewrite split_whole by (eapply Forall_impl; [|exact CL]; cbn; tauto).
  assert (B : forall p x, lit p = x :: tl (lit p) -> is_digit x = false -> x <> 60%N -> x <> 62%N -> ~ begins p (lit "---" ++ [NL]) ->
     Forall (fun l => ~ begins p l) (concat (map cmd_text cs))).
  { intros p x E1 E2 E3 E4 E5. eapply Forall_impl; [|exact CL]. intros l [_ H]. eapply cmd_head_not; eauto. }
  assert (G : determine_generator (concat (map cmd_text cs)) = DiffDiff).
  { apply generator_of; [apply (B "==== "%string 61%N)|apply (B "Index: "%string 73%N)]; try reflexivity; try discriminate; intros [u U]; discriminate. }
  destruct (clean_same (concat (map cmd_text cs))) as [n EC].
  { apply (B "\ No newline"%string BSL); try reflexivity; try discriminate; intros [u U]; discriminate. }
  assert (D : Forall (fun l => ~ begins "diff " l) (concat (map cmd_text cs))).
  { apply (B "diff "%string 100%N); try reflexivity; try discriminate; intros [u U]; discriminate. }
  destruct empty_contents as [C0 N0].
  destruct (cmds_forward cs (S (length (concat (map cmd_text cs)))) [] (new_model [] []) [] F) as (m & ps & E & C & FP & W); auto.
  { intros l ls H; discriminate. }
  { intros l ls H; discriminate. }
  { pose proof (cmds_count cs F). unfold str, chr in *. lia. }
  rewrite app_nil_r in E.
  assert (CA : commands_are cs m) by (exists ps; auto).
  unfold parse. rewrite G, EC. cbn [bind]. unfold base_parse.
  assert (FM : determine_format DiffDiff (concat (map cmd_text cs)) = Normal).
  { rewrite <- (app_nil_r (concat (map cmd_text cs))). apply cmds_format; auto; discriminate. }
  rewrite FM.
  unfold parse_normal. cbn [files]. unfold normal_head_of at 1. rewrite no_header_search by assumption. cbn [bind].
  unfold hunk_fuel. rewrite E. cbn [bind]. unfold append_model.
  pose proof (commands_listed _ _ N F CA) as L. apply Nat.ltb_lt in L. rewrite L. cbn [app].
  rewrite (one_permuted m (sort [m])) by apply HP.
  eexists. exists m. split; [reflexivity|]. cbn [po_malformed po_format po_models]. repeat (split; [reflexivity|]).
  split; [eapply named_contents; eauto|exact CA].
Qed.
(** * Several files with headers *)
Lemma aside_no p l : In p ["diff "; "Index: "; "==== "; "--- "; "< "; "> "; "\ No newline"]%string -> aside l -> ~ begins p l.
Proof. intros I [_ _ F]. rewrite Forall_forall in F. apply F. exact I. Qed.
Lemma aside_digit l : aside l -> forall c x, l = c :: x -> is_digit c = false.
Proof. intros [_ (_ & Q & _) _]. exact Q. Qed.
Definition nfile_start (ls : list str) : Prop := forall l ls', ls = l :: ls' -> aside l \/ begins "diff " l.
Lemma nfile_start_ends ls : nfile_start ls -> ends_command ls /\ no_command ls.
Proof.
  intros H. split.
  - intros l ls' E. destruct (H l ls' E) as [A|[x ->]].
    + split; apply aside_no; auto; cbn; tauto.
    + split; intros [y Y]; discriminate.
  - intros l ls' E c x ->. destruct (H _ _ E) as [A|[y Y]]; [eapply aside_digit; eauto|]. injection Y as -> _. reflexivity.
Qed.
Lemma start_of fs after : Forall aside after -> Forall nfile_ok fs -> nfile_start (ndoc_lines fs after).
Proof.
  intros A F l ls E. unfold ndoc_lines in E. destruct F as [|f fs [AS _ _ _ _ _] F]; cbn [map concat app] in E.
  - destruct A; [discriminate|]. injection E as -> _. auto.
  - unfold nfile_text in E. destruct AS as [|b bs B AS]; cbn [app] in E; injection E as <- _; [|auto]. right. eexists. reflexivity.
Qed.
Lemma nhead_forward f rest : nfile_ok f -> exists m,
  normal_diff_header_search false (nf_before f ++ [nheader_text f] ++ rest) = (Some m, rest) /\
  contents m [] /\ named m (unescape_path (nf_old f)) (unescape_path (nf_new f)) [] [].
Proof.
  intros OK. destruct (nheader_forward f OK) as (c & M & C1 & C2). destruct OK as [AS _ _ _ _ _].
  edestruct set_files_named as [N C]; [reflexivity|]. eexists. split; [|split; [exact C|exact N]].
  induction AS as [|b bs B AS IH]; cbn [app normal_diff_header_search].
  - rewrite M, C1, C2. reflexivity.
  - rewrite no_nheader by (apply aside_no; [cbn; tauto|exact B]). exact IH.
Qed.
Lemma nfiles_forward fs : forall fuel after ms bad, Forall nfile_ok fs -> Forall aside after -> (length fs < fuel)%nat ->
  exists new bad' rest, files (normal_head_of DiffDiff) (hunk_fuel normal_hunks) (normal_header_of DiffDiff) fuel
      (ndoc_lines fs after) ms bad = Ok (ms ++ new, bad', rest) /\ Forall2 nfile_is fs new.
Proof.
  induction fs as [|f fs IH]; intros fuel after ms bad OK BA L; (destruct fuel as [|fuel]; [cbn in L; lia|]); cbn [files]; unfold normal_head_of at 1.
  - exists [], bad, []. rewrite app_nil_r. split; [|constructor]. unfold ndoc_lines. cbn [map concat app].
    rewrite no_header_search; [reflexivity|]. eapply Forall_impl; [|exact BA]. intros l. apply aside_no. cbn. tauto.
  - inversion_clear OK as [|? ? OKf OK'].
    destruct (nhead_forward f (concat (map cmd_text (nf_cmds f)) ++ ndoc_lines fs after) OKf) as (m0 & E0 & C0 & N0).
    destruct (nfile_start_ends _ (start_of fs after BA OK')) as [EC NC].
    destruct (cmds_forward (nf_cmds f) (S (length (concat (map cmd_text (nf_cmds f)) ++ ndoc_lines fs after))) (ndoc_lines fs after) m0 [])
      as (m & ps & E & C & FP & W); [apply OKf|exact EC|exact NC| |exact C0|].
    { rewrite app_length. pose proof (cmds_count (nf_cmds f) ltac:(apply OKf)). unfold str, chr in *. lia. }
    assert (CA : commands_are (nf_cmds f) m) by (exists ps; auto).
    assert (PI : nfile_is f m) by (split; [eapply named_contents; eauto|exact CA]).
    destruct (IH fuel after (ms ++ [m]) (bad || bad_next_header (normal_header_of DiffDiff) (ndoc_lines fs after))%bool OK' BA ltac:(cbn in L; lia))
      as (new & bad' & rest & EF & FN).
    exists (m :: new), bad', rest. split; [|constructor; assumption].
    replace (ndoc_lines (f :: fs) after) with (nf_before f ++ [nheader_text f] ++ concat (map cmd_text (nf_cmds f)) ++ ndoc_lines fs after).
    2:{ unfold ndoc_lines. cbn [map concat]. unfold nfile_text. rewrite <- !app_assoc. reflexivity. }
    rewrite E0. cbn [bind]. unfold hunk_fuel at 1. rewrite E. cbn [bind].
    unfold append_model. pose proof (commands_listed _ _ ltac:(apply OKf) ltac:(apply OKf) CA) as LI. apply Nat.ltb_lt in LI. rewrite LI.
    rewrite EF. rewrite <- app_assoc. reflexivity.
Qed.
Lemma nheader_whole f : nfile_ok f -> whole_line (nheader_text f).
Proof.
  intros [_ O [NO NN] _ _ _]. unfold nheader_text.
  exists (lit "diff " ++ concat (map (fun o => o ++ lit " ") (nf_options f)) ++ nf_old f ++ lit " " ++ nf_new f).
  split; [rewrite <- !app_assoc; reflexivity|]. repeat apply no_nl_app; try (apply no_nl_lit; reflexivity); try apply NO; try apply NN.
  induction O as [|o os (x & X1 & X2 & HO) O IH]; [intros []|]. cbn [map concat]. repeat apply no_nl_app; try exact IH; [|apply no_nl_lit; reflexivity].
  assert (~ In NL x). { intros I. rewrite Forall_forall in X2. apply X2 in I. unfold option_char, NL in I. lia. }
  destruct HO as [->| ->]; apply no_nl_app; auto; apply no_nl_lit; reflexivity.
Qed.
Lemma ndoc_all (P : str -> Prop) fs after : Forall nfile_ok fs -> Forall aside after ->
  (forall l, aside l -> P l) -> (forall f, nfile_ok f -> P (nheader_text f)) -> (forall l, whole_line l -> cmd_head l -> P l) ->
  Forall P (ndoc_lines fs after).
Proof.
  intros F A H1 H2 H3. unfold ndoc_lines. apply Forall_app. split; [|eapply Forall_impl; [|exact A]; exact H1].
  apply Forall_concat, Forall_map. eapply Forall_impl; [|exact F]. intros f OK. unfold nfile_text. apply Forall_app. split.
  - eapply Forall_impl; [|apply OK]. exact H1.
  - cbn [app]. constructor; [auto|]. eapply Forall_impl; [|apply cmds_lines; apply OK]. cbn. intros l []. auto.
Qed.
Lemma several_normal sort fs after : (forall l, Permutation (sort l) l) -> fs <> [] -> Forall nfile_ok fs -> Forall aside after ->
  exists o ms, parse sort (split_lines (concat (ndoc_lines fs after))) = Ok o /\ po_format o = Normal /\
    Permutation (the_models (po_models o)) ms /\ Forall2 nfile_is fs ms /\ po_malformed o = true.
Proof.
  intros HP NE OK AF.
  assert (AL : forall P : str -> Prop, (forall l, aside l -> P l) -> (forall f, nfile_ok f -> P (nheader_text f)) -> (forall l, whole_line l -> cmd_head l -> P l) ->
    Forall P (ndoc_lines fs after)) by (intros P; now apply ndoc_all).
  rewrite split_whole by (apply AL; [intros l [(t & -> & H) _ _]; exists t; auto|exact nheader_whole|auto]).
  assert (G : determine_generator (ndoc_lines fs after) = DiffDiff).
  { apply generator_plain. apply AL.
    - intros l A. split; apply aside_no; auto; cbn; tauto.
    - intros f _. split; intros [x X]; discriminate.
    - intros l _ H. split; [apply (cmd_head_not "==== " l 61%N)|apply (cmd_head_not "Index: " l 73%N)]; auto; try reflexivity; try discriminate; intros [u U]; discriminate. }
  destruct (clean_same (ndoc_lines fs after)) as [n EC].
  { apply AL.
    - intros l A. apply (aside_no "\ No newline"); auto; cbn; tauto.
    - intros f _ [x X]. discriminate.
    - intros l _ H. apply (cmd_head_not "\ No newline" l BSL); auto; try reflexivity; try discriminate. intros [u U]; discriminate. }
  assert (FM : determine_format DiffDiff (ndoc_lines fs after) = Normal).
  { destruct OK as [|f fs OKf OK]; [congruence|]. unfold ndoc_lines. cbn [map concat]. unfold nfile_text. rewrite <- !app_assoc.
    assert (forall l, aside l -> line_format DiffDiff l = None).
    { intros l A. apply quiet_format; [discriminate|apply A|]. apply aside_no; auto; cbn; tauto. }
    assert (HD : line_format DiffDiff (nheader_text f) = None).
    { apply quiet_format; [discriminate| |intros [x X]; discriminate]. split; [intros [x X]; discriminate|]. split.
      - intros c x X. injection X as <- _. reflexivity.
      - intros c d x X _. injection X as <- <- _. reflexivity. }
    pose proof (nf_asides _ OKf) as AS. induction AS as [|b bs B AS IH]; cbn [app determine_format].
    - rewrite HD. apply cmds_format; [apply OKf|apply OKf|discriminate].
    - rewrite H by assumption. exact IH. }
  destruct (nfiles_forward fs (S (length (ndoc_lines fs after))) after [] false OK AF) as (new & bad & rest & E & FN).
  { unfold ndoc_lines. rewrite app_length. enough (length fs <= length (concat (map nfile_text fs)))%nat by (unfold str, chr in *; lia).
    clear. induction fs as [|f fs IH]; cbn [map concat length]; [lia|]. rewrite app_length. unfold nfile_text at 1. rewrite !app_length. cbn [length]. unfold str, chr in *. lia. }
  unfold parse. rewrite G, EC. cbn [bind]. unfold base_parse. rewrite FM. unfold parse_normal. rewrite E. cbn [bind].
  unfold hunk_fuel. cbn [normal_hunks]. rewrite no_command_at by (apply nfile_start_ends; now apply start_of). cbn [bind].
  assert (append_model ([] ++ new) (new_model [] []) = new) as -> by reflexivity.
  eexists. exists new. split; [reflexivity|]. cbn [po_malformed po_format po_models]. split; [reflexivity|].
  split; [rewrite the_models_sort; apply HP|]. split; [exact FN|].
  assert (K : ndoc_lines fs after <> []).
  { destruct OK as [|f fs OKf OK]; [congruence|]. unfold ndoc_lines. cbn [map concat]. unfold nfile_text. destruct (nf_before f); discriminate. }
  destruct (ndoc_lines fs after); [congruence|]. apply orb_true_r.
Qed.
