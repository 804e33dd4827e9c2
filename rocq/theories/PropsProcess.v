(** Properties of the command line, the settings and the saved diff. *)
From Coq Require Import String.
From Verif Require Import Base QtStr Settings Parser Info Process SaveDiff SpecProcess PLevTable PProcess PSettings.
Open Scope Z_scope.

(** * C47 *)
(** How the operand for a side is written. *)
Definition operands (f : str -> str) (md : mode) (source destination : str) : list str :=
  match md with
  | ComparingStringFile => [lit "-"; f destination]
  | ComparingFileString => [f source; lit "-"]
  | _ => [f source; f destination]
  end.
Lemma process_shape other kp (x : res kprocess) source destination dir md :
  x = Ok kp -> kp_program kp <> [] ->
  (do p <- x;
   let p := match dir with [] => p | _ => mk_kp (kp_program p) (kp_args p) dir (kp_env p) end in
   let p := p << lit "--" in
   let '(p, custom) := match md with
                       | ComparingStringFile => (p << lit "-", source)
                       | _ => (p << construct_relative_path other dir source, [])
                       end in
   let '(p, custom) := match md with
                       | ComparingFileString => (p << lit "-", destination)
                       | _ => (p << construct_relative_path other dir destination, custom)
                       end in
   Ok (mk_process p md custom)) =
  Ok (mk_process (mk_kp (kp_program kp) (kp_args kp ++ lit "--" :: operands (construct_relative_path other dir) md source destination)
                    (match dir with [] => kp_dir kp | _ => dir end) (kp_env kp)) md
        (match md with ComparingStringFile => source | ComparingFileString => destination | _ => [] end)).
Proof.
  intros -> P. cbn [bind]. cbv zeta. destruct kp as [pr ar di en]. cbn [kp_program kp_args kp_dir kp_env] in *.
  destruct pr as [|c0 pr]; [now elim P|]. unfold append_arg.
  destruct md, dir; cbn [kp_program kp_args kp_dir kp_env operands]; rewrite <- !app_assoc; reflexivity.
Qed.
Lemma getopt_end l os fs : stands l os -> getopt None (l ++ lit "--" :: fs) = Some (os, fs).
Proof. intros H. rewrite H. cbn [getopt lit Ascii.N_of_ascii]. cbn. now rewrite app_nil_r. Qed.

(** The command line of a comparison with the user's settings, read the way diff reads it. *)
Theorem C47_command_line :
  forall other st source destination dir md, exists p opts,
    new_process other (Some st) CustomDiffMode source destination dir md = Ok p /\
    (st_program st = [] -> kp_program (pr_kp p) = lit "diff") /\ (st_program st <> [] -> kp_program (pr_kp p) = st_program st) /\
    kp_dir (pr_kp p) = dir /\
    getopt None (kp_args (pr_kp p)) = Some (opts, operands (construct_relative_path other dir) md source destination) /\
    (forall c a, In (c, a) opts -> wanted st c a) /\
    (forall c a, wanted st c a -> exists a', In (c, a') opts) /\
    map snd (filter (fun o => N.eqb (fst o) 120) opts) = (if st_patterns st then map Some (st_pattern_list st) else []) /\
    NoDup (map fst (filter (fun o => negb (N.eqb (fst o) 120)) opts)).
Proof.
  intros other st source destination dir md.
  eexists _, (setting_options st). split; [exact (process_shape other _ _ source destination dir md (f_equal Ok (command_line_ok st [(lit "LANG", lit "C")])) (the_program_some st))|]. cbn [pr_kp kp_program kp_args kp_dir].
  split; [intros E; unfold the_program; now rewrite E|]. split; [unfold the_program; destruct (st_program st); [congruence|reflexivity]|].
  split; [now destruct dir|]. split; [apply getopt_end, setting_stands|].
  split; [apply options_wanted|]. split; [apply wanted_option|]. split; [apply excludes_in_order|apply others_once].
Qed.
(** With the default mode: minimal, recursive, unified with the context of the settings; without settings the code
    dereferences a null pointer although it has just tested for it. *)
Theorem C47_default_command_line :
  forall other st source destination dir md, exists p t,
    new_process other (Some st) DefaultDiffMode source destination dir md = Ok p /\
    kp_program (pr_kp p) = (match st_program st with [] => lit "diff" | _ => st_program st end) /\ kp_dir (pr_kp p) = dir /\
    is_decimal t (st_context st) /\
    getopt None (kp_args (pr_kp p)) =
      Some ([(100%N, None); (114%N, None); (85%N, Some t)], operands (construct_relative_path other dir) md source destination).
Proof.
  intros other st source destination dir md.
  set (kp := mk_kp (the_program st) [lit "-dr"; lit "-U"; number (st_context st)] [] [(lit "LANG", lit "C")]).
  assert (E : write_default_command_line (Some st) (mk_kp [] [] [] [(lit "LANG", lit "C")]) = Ok kp).
  { unfold write_default_command_line, kp, the_program. destruct (st_program st); reflexivity. }
  eexists _, (number (st_context st)). split; [exact (process_shape other kp _ source destination dir md E (the_program_some st))|]. cbn [pr_kp kp_program kp_args kp_dir].
  split; [reflexivity|]. split; [now destruct dir|]. split; [apply number_decimal|].
  apply getopt_end. intros rest. cbn. destruct (getopt None rest) as [[? ?]|]; reflexivity.
Qed.
Theorem C47_default_without_settings_refuted :
  forall other source destination dir md, exists why, new_process other None DefaultDiffMode source destination dir md = UB why.
Proof. intros. eexists. reflexivity. Qed.
(** What is written to diff's input is the string side of the comparison, and nothing when both sides are files. *)
Theorem C47_input :
  forall other st dm source destination dir md p, new_process other st dm source destination dir md = Ok p ->
    input_text p = match md with ComparingStringFile => source | ComparingFileString => destination | _ => [] end.
Proof.
  intros other st dm source destination dir md p H. unfold new_process in H.
  match type of H with bind ?x _ = _ => destruct x as [kp| |]; try discriminate end. cbn [bind] in H.
  destruct md; injection H as <-; reflexivity.
Qed.
(** compare() gives diff the two local files, unchanged. *)
Theorem C47_compare_files :
  forall other st i md, md = ComparingFiles \/ md = ComparingDirs -> exists p opts,
    compare_process other (Some st) i md = Ok p /\ kp_dir (pr_kp p) = [] /\
    getopt None (kp_args (pr_kp p)) = Some (opts, [in_local_source i; in_local_destination i]).
Proof.
  intros other st i md M. destruct (C47_command_line other st (in_local_source i) (in_local_destination i) [] md) as (p & opts & E & _ & _ & D & G & _).
  exists p, opts. split; [exact E|]. split; [exact D|]. rewrite G. destruct M; subst md; reflexivity.
Qed.
(** Settings as they are constructed, never loaded: the only option is the unified format with no line of context. *)
Theorem C47_fresh_settings :
  forall other source destination dir md, exists p,
    new_process other (Some fresh_settings) CustomDiffMode source destination dir md = Ok p /\ kp_program (pr_kp p) = lit "diff" /\
    getopt None (kp_args (pr_kp p)) = Some ([(85%N, Some (lit "0"))], operands (construct_relative_path other dir) md source destination).
Proof.
  intros other source destination dir md.
  eexists. split; [exact (process_shape other _ _ source destination dir md (f_equal Ok (command_line_ok fresh_settings [(lit "LANG", lit "C")])) (the_program_some fresh_settings))|].
  cbn [pr_kp kp_program kp_args kp_dir]. split; [reflexivity|]. rewrite (getopt_end _ _ _ (setting_stands fresh_settings)). reflexivity.
Qed.
Print Assumptions C47_fresh_settings.
(** What the operands are when a path has a character that means something in a URL, or does not begin with one slash, is left open. *)
Theorem C47_other_paths :
  forall other from to, from <> [] ->
  (exists t, (t = from \/ t = to) /\ (t = [] \/ (exists c r, t = c :: r /\ c <> SLASH) \/ (exists r, t = SLASH :: SLASH :: r) \/ exists c, In c t /\ In c (lit "?#%"))) ->
  construct_relative_path other from to = other from to.
Proof.
  intros other from to F (t & T & B).
  assert (P : plain t = false).
  { unfold plain. destruct B as [->|[(c & r & -> & C)|[(r & ->)|(c & I & S)]]].
    - reflexivity.
    - apply N.eqb_neq in C. destruct r; rewrite C; reflexivity.
    - reflexivity.
    - apply andb_false_intro2. match goal with |- ?x = false => destruct x eqn:A; [|reflexivity] end. rewrite forallb_forall in A. specialize (A c I). destruct S as [<-|[<-|[<-|[]]]]; discriminate A. }
  unfold construct_relative_path. destruct from as [|a f]; [contradiction|]. destruct T as [<-|<-]; rewrite P, ?andb_false_r; reflexivity.
Qed.
Print Assumptions C47_other_paths.
(** An example: patterns and regular expressions that look like options. *)
Definition nasty : settings :=
  mk_settings [] 7 4 true false true false false true false false false true (lit "--") [] true false true [lit "-x"; lit "--"; []] true (lit "-N") [].
Theorem C47_example :
  exists p, compare_process (fun _ t => t) (Some nasty) (mk_info ComparingFiles CustomDiffMode UnknownFormat None [] [] (lit "-a") (lit "--") None None 0 true) ComparingFiles = Ok p /\
  getopt None (kp_args (pr_kp p)) =
    Some ([(85%N, Some (lit "7")); (72%N, None); (119%N, None); (100%N, None); (73%N, Some (lit "--")); (114%N, None);
           (120%N, Some (lit "-x")); (120%N, Some (lit "--")); (120%N, Some []); (88%N, Some (lit "-N"))], [lit "-a"; lit "--"]).
Proof. eexists. split; reflexivity. Qed.

(** * C48 *)
(** The entries of the configuration that belong to the settings. *)
Definition setting_entries : list (str * str) :=
  map (fun k => (lit "Diff Options", lit k))
    ["DiffProgram"; "LinesOfContext"; "Format"; "LargeFiles"; "IgnoreWhiteSpace"; "IgnoreAllWhiteSpace"; "IgnoreEmptyLines"; "IgnoreChangesInCase";
     "IgnoreChangesDueToTabExpansion"; "IgnoreRegExp"; "IgnoreRegExpText"; "IgnoreRegExpTextHistory"; "CreateSmallerDiff"; "ConvertTabsToSpaces";
     "ShowCFunctionChange"; "CompareRecursively"; "NewFiles"]%string ++
  map (fun k => (lit "Exclude File Options", lit k)) ["Pattern"; "PatternList"; "File"; "FileURL"; "FileHistoryList"]%string.
Theorem C48_load_after_save :
  forall st c, int (st_context st) -> int (st_format st) -> load_settings (save_settings st c) = st.
Proof.
  intros st c A B. unfold load_settings, save_settings, get_str, get_bool, get_int, get_list, put_str, put_bool, put_int, put_list.
  cbv [write_text str_eqb lit Ascii.N_of_ascii Ascii.N_of_digits N.add N.mul Pos.add Pos.mul N.eqb Pos.eqb andb].
  rewrite !read_bool_text, !read_list_text, !read_int_number by assumption. destruct st; reflexivity.
Qed.
Lemma write_other g k v c g' k' : (g, k) <> (g', k') -> write_text g k v c g' k' = c g' k'.
Proof.
  intros H. unfold write_text. destruct (str_eqb g g') eqn:A; [|reflexivity]. destruct (str_eqb k k') eqn:B; [|reflexivity].
  apply str_eqb_ok in A, B. subst. now elim H.
Qed.
Theorem C48_save_keeps_other_entries :
  forall st c g k, ~ In (g, k) setting_entries -> save_settings st c g k = c g k.
Proof.
  intros st c g k H. assert (N : forall e, In e setting_entries -> e <> (g, k)) by (intros e I E; subst e; now apply H).
  unfold save_settings, put_str, put_bool, put_int, put_list. cbv zeta.
  rewrite !write_other by (apply N; unfold setting_entries; cbn [map app]; repeat (try (left; reflexivity); right)). reflexivity.
Qed.
(** Two loads of the same configuration agree whatever the members held before: load_settings takes no settings at all.
    What an empty configuration gives: *)
Theorem C48_defaults :
  load_settings (fun _ _ => None) =
  {| st_program := []; st_context := 3; st_format := 4; st_large := true; st_space := false; st_all_space := false; st_empty_lines := false;
     st_tabs := false; st_smaller := true; st_case := false; st_function := false; st_expand := false; st_regexp := false; st_regexp_text := [];
     st_regexp_history := []; st_recursive := true; st_new_files := true; st_patterns := false; st_pattern_list := []; st_file := false;
     st_file_url := []; st_file_history := [] |}.
Proof. reflexivity. Qed.
(** Loading reads the settings' entries only. *)
Theorem C48_load_reads_own_entries :
  forall c c', (forall g k, In (g, k) setting_entries -> c g k = c' g k) -> load_settings c = load_settings c'.
Proof.
  intros c c' H. unfold load_settings, get_str, get_bool, get_int, get_list. cbv zeta.
  rewrite !H by (unfold setting_entries; cbn [map app]; repeat (try (left; reflexivity); right)). reflexivity.
Qed.
(** Numbers written by hand: an entry that is not a number, with or without a minus sign, counts as absent. *)
Theorem C48_wrong_numbers :
  forall c g k t, c g k = Some t -> g = lit "Diff Options" ->
  ~ (exists sign ds, (sign = [] \/ sign = lit "-") /\ t = sign ++ ds /\ ds <> [] /\ Forall (fun d => is_digit d = true) ds) ->
  (k = lit "LinesOfContext" -> st_context (load_settings c) = 3) /\ (k = lit "Format" -> st_format (load_settings c) = 4).
Proof.
  intros c g k t E -> N. assert (R : forall d, read_int t d = d).
  { intros d. unfold read_int. destruct t as [|x t]; [reflexivity|]. destruct (N.eqb_spec x 45) as [->|X].
    - destruct t as [|y t]; [reflexivity|]. cbn [length Nat.eqb negb andb]. destruct (forallb is_digit (y :: t)) eqn:F; [|reflexivity]. exfalso. apply N. exists (lit "-"), (y :: t).
      split; [now right|]. split; [reflexivity|]. split; [discriminate|]. rewrite forallb_forall in F. now apply Forall_forall.
    - cbn [length Nat.eqb negb andb]. destruct (forallb is_digit (x :: t)) eqn:F; [|reflexivity]. exfalso. apply N. exists [], (x :: t).
      split; [now left|]. split; [reflexivity|]. split; [discriminate|]. rewrite forallb_forall in F. now apply Forall_forall. }
  split; intros ->; unfold load_settings, get_int; cbn [st_context st_format]; rewrite E; apply R.
Qed.
Example C48_wrong_number_example : exists c, c (lit "Diff Options") (lit "LinesOfContext") = Some (lit "3x") /\ st_context (load_settings c) = 3 /\
  st_context (load_settings (fun _ _ => Some (lit "-7"))) = -7.
Proof. exists (fun _ _ => Some (lit "3x")). vm_compute. auto. Qed.
(** Entries written by hand: a switch is off if its entry is false, no, off or 0, in capital or small letters, and on otherwise. *)
Definition switches : list (string * string * (settings -> bool)) :=
  [("Diff Options", "LargeFiles", st_large); ("Diff Options", "IgnoreWhiteSpace", st_space); ("Diff Options", "IgnoreAllWhiteSpace", st_all_space);
   ("Diff Options", "IgnoreEmptyLines", st_empty_lines); ("Diff Options", "IgnoreChangesDueToTabExpansion", st_tabs);
   ("Diff Options", "IgnoreChangesInCase", st_case); ("Diff Options", "IgnoreRegExp", st_regexp); ("Diff Options", "CreateSmallerDiff", st_smaller);
   ("Diff Options", "ConvertTabsToSpaces", st_expand); ("Diff Options", "ShowCFunctionChange", st_function);
   ("Diff Options", "CompareRecursively", st_recursive); ("Diff Options", "NewFiles", st_new_files);
   ("Exclude File Options", "Pattern", st_patterns); ("Exclude File Options", "File", st_file)]%string.
Theorem C48_switches :
  forall g k f c t, In (g, k, f) switches -> c (lit g) (lit k) = Some t ->
  (f (load_settings c) = false <-> In (map lower t) (map lit ["false"; "no"; "off"; "0"]%string)).
Proof.
  intros g k f c t H E.
  assert (R : read_bool t = false <-> In (map lower t) (map lit ["false"; "no"; "off"; "0"]%string)).
  { unfold read_bool. set (l := map lower t). clearbody l. clear.
    rewrite negb_false_iff, !orb_true_iff, !str_eqb_ok. cbn [map In]. split; intros Q; intuition congruence. }
  rewrite <- R. unfold switches in H. cbn [In] in H.
  repeat (destruct H as [H|H]; [injection H as <- <- <-; unfold load_settings, get_bool; cbn; cbn in E; now rewrite E|]). elim H.
Qed.
Theorem C48_example :
  load_settings (save_settings nasty (fun _ _ => Some (lit "junk"))) = nasty /\
  save_settings nasty (fun _ _ => Some (lit "junk")) (lit "Other") (lit "Format") = Some (lit "junk").
Proof. split; reflexivity. Qed.

(** * C60: saveDiff names the same two files from the given directory *)
Lemma opens_parent dir f : plain f = true -> starts_with dir f = true -> (exists d, dir = d ++ [SLASH]) -> (forall t, skipn (length dir) f <> SLASH :: t) ->
  opens dir (skipn (length dir) f) f.
Proof.
  intros P SW [d E] NS. assert (F : f = dir ++ skipn (length dir) f).
  { clear - SW. revert f SW. induction dir as [|c dir IH]; intros [|x f] SW; try reflexivity; [discriminate|]. cbn in SW. apply andb_prop in SW as [A B].
    apply N.eqb_eq in A. subst. cbn. f_equal. now apply IH. }
  rewrite F at 2. now apply (opens_relative dir d).
Qed.
Lemma ends_slash s : ends_with_chr SLASH s = true -> exists d, s = d ++ [SLASH].
Proof.
  induction s as [|c s IH]; [discriminate|]. cbn [ends_with_chr]. destruct s as [|c' s]; intros H.
  - apply N.eqb_eq in H. subst. now exists [].
  - destruct (IH H) as [d ->]. now exists (c :: d).
Qed.
Lemma plain_absolute f : plain f = true -> exists t, f = SLASH :: t.
Proof.
  unfold plain. destruct f as [|c [|d f]]; [discriminate| |]; intros H; apply andb_prop in H as [H _]; [|apply andb_prop in H as [H _]];
    apply N.eqb_eq in H; subst; eauto.
Qed.
Theorem C60_same_files_partial :
  forall other st i dir source destination,
    in_local_source i = source -> in_local_destination i = destination -> plain dir = true -> plain source = true -> plain destination = true ->
    ends_with_chr SLASH dir = true ->
    (forall t, skipn (length dir) source <> SLASH :: t) -> (forall t, skipn (length dir) destination <> SLASH :: t) ->
    exists p opts f g, save_diff_process other (Some st) i dir = Ok p /\ kp_dir (pr_kp p) = dir /\
      getopt None (kp_args (pr_kp p)) = Some (opts, [f; g]) /\ opens dir f source /\ opens dir g destination.
Proof.
  intros other st i dir source destination ES ED PD PS PT EN NS ND.
  destruct (C47_command_line other st (in_local_source i) (in_local_destination i) dir UnknownMode) as (p & opts & E & _ & _ & D & G & _).
  exists p, opts, (construct_relative_path other dir source), (construct_relative_path other dir destination).
  split; [exact E|]. split; [exact D|]. split; [rewrite G, ES, ED; reflexivity|].
  assert (K : forall f, plain f = true -> (forall t, skipn (length dir) f <> SLASH :: t) -> opens dir (construct_relative_path other dir f) f).
  { intros f PF NF. unfold construct_relative_path. rewrite PD, PF. destruct dir as [|c dir]; [discriminate|]. cbn [andb].
    destruct (is_parent_of (c :: dir) f) eqn:I.
    - unfold is_parent_of in I. apply andb_prop in I as [I _]. apply andb_prop in I as [I _]. apply opens_parent; auto. now apply ends_slash.
    - destruct (plain_absolute f PF) as [t ->]. constructor. }
  split; apply K; assumption.
Qed.
(** Exactly: a file is missed when, and only when, its name goes on after the directory's with a slash: the directory was given
    without trailing slash and the file is below it (or the name has two slashes there). What follows is opened instead. *)
Lemma opens_fun dir f x y : opens dir f x -> opens dir f y -> x = y.
Proof.
  intros A B. destruct A as [t|d t NS DD|d c t NS DD NC].
  - inversion B as [t' B1 B2|d' t' NS' DD' B1 B2|d' c' t' NS' DD' NC' B1 B2]; [reflexivity|now elim (NS' t)|now elim (NS' t)].
  - inversion B as [t' B1 B2|d' t' NS' DD' B1 B2|d' c' t' NS' DD' NC' B1 B2]; [now elim (NS t')|reflexivity|].
    rewrite DD in DD'. apply app_inj_tail in DD' as [_ Q]. now elim NC'.
  - inversion B as [t' B1 B2|d' t' NS' DD' B1 B2|d' c' t' NS' DD' NC' B1 B2]; [now elim (NS t')| |reflexivity].
    rewrite DD in DD'. apply app_inj_tail in DD' as [_ Q]. now elim NC.
Qed.
Lemma starts_rest dir f : starts_with dir f = true -> f = dir ++ skipn (length dir) f.
Proof.
  revert f. induction dir as [|c dir IH]; intros [|x f] SW; try reflexivity; [discriminate|]. cbn in SW. apply andb_prop in SW as [A B].
  apply N.eqb_eq in A. subst. cbn. f_equal. now apply IH.
Qed.
Lemma starts_of (dir r : str) : starts_with dir (dir ++ r) = true.
Proof. induction dir as [|c dir IH]; [destruct r; reflexivity|]. cbn. now rewrite N.eqb_refl. Qed.
Lemma relative_exactly other dir file : plain dir = true -> plain file = true ->
  (forall r, file = dir ++ SLASH :: r -> opens dir (construct_relative_path other dir file) (SLASH :: r)) /\
  ((forall r, file <> dir ++ SLASH :: r) -> opens dir (construct_relative_path other dir file) file).
Proof.
  intros PD PF. unfold construct_relative_path. rewrite PD, PF. destruct dir as [|c dir]; [discriminate|]. cbn [andb]. set (d := c :: dir) in *. split.
  - intros r E. assert (I : is_parent_of d file = true).
    { unfold is_parent_of. rewrite E, starts_of. cbn [andb]. rewrite nth_error_app2, Nat.sub_diag by lia. cbn [nth_error]. rewrite N.eqb_refl, Bool.orb_true_r, Bool.andb_true_r.
      apply Nat.ltb_lt. rewrite app_length. cbn [length]. lia. }
    rewrite I. rewrite E, skipn_app, skipn_all, Nat.sub_diag. cbn [app skipn]. constructor.
  - intros N. destruct (is_parent_of d file) eqn:I; [|destruct (plain_absolute file PF) as [t ->]; constructor].
    unfold is_parent_of in I. apply andb_prop in I as [I J]. apply andb_prop in I as [I L]. pose proof (starts_rest d file I) as F.
    assert (NS : forall t, skipn (length d) file <> SLASH :: t) by (intros t Q; rewrite Q in F; now apply (N t)).
    apply Bool.orb_prop in J as [J|J].
    + apply opens_parent; auto. now apply ends_slash.
    + exfalso. rewrite F in J. rewrite nth_error_app2, Nat.sub_diag in J by lia. destruct (skipn (length d) file) as [|x t] eqn:Q; [discriminate|].
      cbn [nth_error] in J. apply N.eqb_eq in J. subst x. now apply (NS t).
Qed.
Theorem C60_same_files_exactly :
  forall other st i dir source destination,
    in_local_source i = source -> in_local_destination i = destination -> plain dir = true -> plain source = true -> plain destination = true ->
    exists p opts f g, save_diff_process other (Some st) i dir = Ok p /\ kp_dir (pr_kp p) = dir /\
      getopt None (kp_args (pr_kp p)) = Some (opts, [f; g]) /\
      (opens dir f source <-> ~ exists r, source = dir ++ SLASH :: r) /\ (forall r, source = dir ++ SLASH :: r -> opens dir f (SLASH :: r)) /\
      (opens dir g destination <-> ~ exists r, destination = dir ++ SLASH :: r) /\ (forall r, destination = dir ++ SLASH :: r -> opens dir g (SLASH :: r)).
Proof.
  intros other st i dir source destination ES ED PD PS PT.
  destruct (C47_command_line other st (in_local_source i) (in_local_destination i) dir UnknownMode) as (p & opts & E & _ & _ & D & G & _).
  exists p, opts, (construct_relative_path other dir source), (construct_relative_path other dir destination).
  split; [exact E|]. split; [exact D|]. split; [rewrite G, ES, ED; reflexivity|].
  assert (K : forall f, plain f = true -> (opens dir (construct_relative_path other dir f) f <-> ~ exists r, f = dir ++ SLASH :: r) /\
     (forall r, f = dir ++ SLASH :: r -> opens dir (construct_relative_path other dir f) (SLASH :: r))).
  { intros f PF. destruct (relative_exactly other dir f PD PF) as [A B]. split; [|exact A]. split.
    - intros O [r Q]. pose proof (opens_fun _ _ _ _ O (A r Q)) as X. rewrite Q in X. apply (f_equal (@length _)) in X. rewrite app_length in X. cbn [length] in X.
      destruct dir; [discriminate|cbn [length] in X; lia].
    - intros N. apply B. intros r Q. apply N. now exists r. }
  destruct (K source PS) as [K1 K2], (K destination PT) as [K3 K4]. auto 6.
Qed.
(** Without the trailing slash the operand is absolute and names another file. *)
Theorem C60_same_files_refuted :
  ~ (forall other st i dir p opts f g, plain dir = true -> plain (in_local_source i) = true -> plain (in_local_destination i) = true ->
       save_diff_process other (Some st) i dir = Ok p -> getopt None (kp_args (pr_kp p)) = Some (opts, [f; g]) ->
       opens dir f (in_local_source i)).
Proof.
  intros H. specialize (H (fun _ t => t) fresh_settings
    (mk_info ComparingFiles CustomDiffMode UnknownFormat None [] [] (lit "/work/old") (lit "/work/new") None None 0 true) (lit "/work")
    (mk_process (mk_kp (lit "diff") [lit "-U"; lit "0"; lit "--"; lit "/old"; lit "/new"] (lit "/work") [(lit "LANG", lit "C")]) UnknownMode [])
    [(85%N, Some (lit "0"))] (lit "/old") (lit "/new") eq_refl eq_refl eq_refl eq_refl eq_refl).
  cbn [in_local_source] in H. inversion H as [t A B|d t NS DD A B|d c t NS DD NC A B]; now elim (NS (lit "old")).
Qed.
Theorem C60_example :
  exists p, save_diff_process (fun _ t => t) (Some fresh_settings)
    (mk_info ComparingFiles CustomDiffMode UnknownFormat None [] [] (lit "/work/sub/old") (lit "/other/new") None None 0 true) (lit "/work/") = Ok p /\
    getopt None (kp_args (pr_kp p)) = Some ([(85%N, Some (lit "0"))], [lit "sub/old"; lit "/other/new"]).
Proof. eexists. split; reflexivity. Qed.

(** * C61: a finished saveDiff has written the diff *)
Theorem C61_written :
  forall other i w url dir st w1 w2 out, wr_files w url = None ->
    save_diff other true i w url dir st = Ok (w1, true) -> slot_write_diff_output true w1 true out = Ok w2 ->
    wr_files w2 url = Some out /\ (forall u, u <> url -> wr_files w2 u = wr_files w u) /\
    wr_out w2 = wr_out w ++ [StatusRunningDiff; StatusFinishedWriting].
Proof.
  intros other i w url dir st w1 w2 out F S D. unfold save_diff in S. cbn [negb] in S.
  destruct (save_diff_process other st i dir) as [p| |]; try discriminate. cbn [bind] in S. injection S as <-.
  unfold slot_write_diff_output in D. cbn [wr_process wr_temp wr_url wr_files wr_out negb] in D. injection D as <-. cbn [wr_files wr_out].
  unfold file_copy. rewrite F. split; [|split].
  - assert (E : str_eqb url url = true) by now apply str_eqb_ok. now rewrite E.
  - intros u N. destruct (str_eqb url u) eqn:E; [|reflexivity]. apply str_eqb_ok in E. now elim N.
  - now rewrite <- app_assoc.
Qed.
(** Exactly: after a diff that worked, the file holds it if and only if it held it before, or there was no such file and the copy worked.
    The end is announced in any case. *)
Theorem C61_written_exactly :
  forall ok other i w url dir st w1 w2 out, save_diff other true i w url dir st = Ok (w1, true) -> slot_write_diff_output ok w1 true out = Ok w2 ->
    wr_out w2 = wr_out w ++ [StatusRunningDiff; StatusFinishedWriting] /\ (forall u, u <> url -> wr_files w2 u = wr_files w u) /\
    (wr_files w2 url = Some out <-> wr_files w url = Some out \/ (wr_files w url = None /\ ok = true)) /\
    (wr_files w2 url <> Some out -> wr_files w2 url = wr_files w url).
Proof.
  intros ok other i w url dir st w1 w2 out S D. unfold save_diff in S. cbn [negb] in S.
  destruct (save_diff_process other st i dir) as [p| |]; try discriminate. cbn [bind] in S. injection S as <-.
  unfold slot_write_diff_output in D. cbn [wr_process wr_temp wr_url wr_files wr_out negb] in D. injection D as <-. cbn [wr_files wr_out].
  split; [now rewrite <- app_assoc|]. unfold file_copy. assert (E : str_eqb url url = true) by now apply str_eqb_ok.
  destruct (wr_files w url) as [old|] eqn:F.
  - split; [reflexivity|]. rewrite F. split; [|reflexivity]. split; [intros Q; left; exact Q|intros [Q|[Q _]]; [exact Q|discriminate]].
  - destruct ok.
    + split. { intros u N. destruct (str_eqb url u) eqn:Q; [apply str_eqb_ok in Q; now elim N|reflexivity]. }
      rewrite E. split; [|intros Q; now elim Q]. split; auto.
    + split; [reflexivity|]. rewrite F. split; [|reflexivity]. split; [discriminate|intros [Q|[_ Q]]; discriminate].
Qed.
(** An existing file is never overwritten, and a failing diff writes nothing. *)
Theorem C61_no_overwrite :
  forall ok w success out w' u, slot_write_diff_output ok w success out = Ok w' -> wr_files w u <> None -> wr_files w' u = wr_files w u.
Proof.
  intros ok w success out w' u H E. unfold slot_write_diff_output in H. destruct (wr_process w); [|discriminate]. destruct (wr_temp w); [|discriminate].
  cbn [negb] in H. destruct success; injection H as <-; [|reflexivity]. cbn [wr_files]. unfold file_copy.
  destruct (wr_files w (wr_url w)) eqn:F; [reflexivity|]. destruct ok; [|reflexivity].
  destruct (str_eqb (wr_url w) u) eqn:Q; [|reflexivity]. apply str_eqb_ok in Q. subst u. now elim E.
Qed.
Theorem C61_failed_diff_writes_nothing :
  forall ok w out w', slot_write_diff_output ok w false out = Ok w' -> wr_files w' = wr_files w /\ wr_out w' = wr_out w.
Proof.
  intros ok w out w' H. unfold slot_write_diff_output in H. destruct (wr_process w); [|discriminate]. destruct (wr_temp w); [|discriminate].
  injection H as <-. split; reflexivity.
Qed.
(** The end of writing is announced although nothing was written: the target exists, or the copy fails. *)
Theorem C61_announced_refuted :
  ~ (forall ok other i w url dir st w1 w2 out, save_diff other true i w url dir st = Ok (w1, true) ->
       slot_write_diff_output ok w1 true out = Ok w2 -> In StatusFinishedWriting (wr_out w2) -> wr_files w2 url = Some out).
Proof.
  intros H. specialize (H true (fun _ t => t) default_info (mk_writer false [] None (fun _ => Some (lit "old")) []) (lit "d.diff") [] (Some fresh_settings)
    _ _ (lit "new") eq_refl eq_refl (or_intror (or_introl eq_refl))). discriminate.
Qed.
Theorem C61_example :
  exists w1 w2, save_diff (fun _ t => t) true default_info (mk_writer false [] None (fun _ => None) []) (lit "d.diff") [] (Some fresh_settings) = Ok (w1, true) /\
    slot_write_diff_output true w1 true (lit "text") = Ok w2 /\ wr_files w2 (lit "d.diff") = Some (lit "text").
Proof. eexists _, _. split; [reflexivity|]. split; reflexivity. Qed.
Print Assumptions C47_command_line.
Print Assumptions C47_default_command_line.
Print Assumptions C47_default_without_settings_refuted.
Print Assumptions C47_input.
Print Assumptions C47_compare_files.
Print Assumptions C47_example.
Print Assumptions C48_load_after_save.
Print Assumptions C48_save_keeps_other_entries.
Print Assumptions C48_defaults.
Print Assumptions C48_load_reads_own_entries.
Print Assumptions C48_wrong_numbers.
Print Assumptions C48_switches.
Print Assumptions C48_example.
Print Assumptions C60_same_files_partial.
Print Assumptions C60_same_files_exactly.
Print Assumptions C60_same_files_refuted.
Print Assumptions C60_example.
Print Assumptions C61_written.
Print Assumptions C61_written_exactly.
Print Assumptions C61_no_overwrite.
Print Assumptions C61_failed_diff_writes_nothing.
Print Assumptions C61_announced_refuted.
Print Assumptions C61_example.
