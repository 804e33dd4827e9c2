(** Reading back the command line. *)
From Coq Require Import String.
From Verif Require Import Base QtStr Settings Parser Info Process SpecParse SpecProcess PHeaders PUnifiedPrint.
Open Scope Z_scope.

(** Arguments that stand for exactly the options [os], whatever follows. *)
Definition stands (args : list str) (os : list (chr * option str)) : Prop :=
  forall rest, getopt None (args ++ rest) = match getopt None rest with Some (o, f) => Some (os ++ o, f) | None => None end.
Lemma stands_nil : stands [] [].
Proof. intros rest. cbn. destruct (getopt None rest) as [[o f]|]; reflexivity. Qed.
Lemma stands_app a b oa ob : stands a oa -> stands b ob -> stands (a ++ b) (oa ++ ob).
Proof.
  intros A B rest. rewrite <- app_assoc, A, B. destruct (getopt None rest) as [[o f]|]; [|reflexivity]. now rewrite <- app_assoc.
Qed.
Lemma stands_if (b : bool) a o : stands a o -> stands (if b then a else []) (if b then o else []).
Proof. destruct b; [easy|intros _; apply stands_nil]. Qed.
Ltac stands_concrete := intros rest; cbn; destruct (getopt None rest) as [[? ?]|]; reflexivity.

(** The arguments and the options of the settings, piece by piece. *)
Definition format_args (st : settings) : list str :=
  if Z.eqb (st_format st) 4 then [lit "-U"; number (st_context st)]
  else if Z.eqb (st_format st) 0 then [lit "-C"; number (st_context st)]
  else if Z.eqb (st_format st) 3 then [lit "-n"]
  else if Z.eqb (st_format st) 1 then [lit "-e"]
  else if Z.eqb (st_format st) 5 then [lit "-y"]
  else [].
Definition format_options (st : settings) : list (chr * option str) :=
  if Z.eqb (st_format st) 4 then [(85%N, Some (number (st_context st)))]
  else if Z.eqb (st_format st) 0 then [(67%N, Some (number (st_context st)))]
  else if Z.eqb (st_format st) 3 then [(110%N, None)]
  else if Z.eqb (st_format st) 1 then [(101%N, None)]
  else if Z.eqb (st_format st) 5 then [(121%N, None)]
  else [].
Definition flag_args (b : bool) (a : string) : list str := if b then [lit a] else [].
Definition flag_options (b : bool) (c : chr) : list (chr * option str) := if b then [(c, None)] else [].
Definition text_on (b : bool) (t : str) : bool := (b && negb (Nat.eqb (length t) 0))%bool.
Definition setting_args (st : settings) : list str :=
  format_args st ++ flag_args (st_large st) "-H" ++ flag_args (st_space st) "-b" ++ flag_args (st_all_space st) "-w" ++
  flag_args (st_empty_lines st) "-B" ++ flag_args (st_tabs st) "-E" ++ flag_args (st_smaller st) "-d" ++ flag_args (st_case st) "-i" ++
  (if text_on (st_regexp st) (st_regexp_text st) then [lit "-I"; st_regexp_text st] else []) ++
  flag_args (st_function st) "-p" ++ flag_args (st_expand st) "-t" ++ flag_args (st_recursive st) "-r" ++ flag_args (st_new_files st) "-N" ++
  (if st_patterns st then flat_map (fun t => [lit "-x"; t]) (st_pattern_list st) else []) ++
  (if text_on (st_file st) (st_file_url st) then [lit "-X"; st_file_url st] else []).
Definition options_1 (st : settings) : list (chr * option str) :=
  format_options st ++ flag_options (st_large st) 72%N ++ flag_options (st_space st) 98%N ++ flag_options (st_all_space st) 119%N ++
  flag_options (st_empty_lines st) 66%N ++ flag_options (st_tabs st) 69%N ++ flag_options (st_smaller st) 100%N ++ flag_options (st_case st) 105%N ++
  (if text_on (st_regexp st) (st_regexp_text st) then [(73%N, Some (st_regexp_text st))] else []) ++
  flag_options (st_function st) 112%N ++ flag_options (st_expand st) 116%N ++ flag_options (st_recursive st) 114%N ++ flag_options (st_new_files st) 78%N.
Definition options_x (st : settings) : list (chr * option str) :=
  if st_patterns st then map (fun t => (120%N, Some t)) (st_pattern_list st) else [].
Definition options_2 (st : settings) : list (chr * option str) :=
  if text_on (st_file st) (st_file_url st) then [(88%N, Some (st_file_url st))] else [].
Definition setting_options (st : settings) := options_1 st ++ options_x st ++ options_2 st.

Lemma setting_stands st : stands (setting_args st) (setting_options st).
Proof.
  unfold setting_args, setting_options, options_1. rewrite <- !app_assoc.
  apply stands_app.
  { unfold format_args, format_options. repeat (match goal with |- context [Z.eqb ?a ?b] => destruct (Z.eqb a b) end; [stands_concrete|]). apply stands_nil. }
  do 7 (apply stands_app; [apply stands_if; stands_concrete|]).
  apply stands_app; [apply stands_if; stands_concrete|].
  do 4 (apply stands_app; [apply stands_if; stands_concrete|]).
  apply stands_app; [|apply stands_if; stands_concrete].
  unfold options_x. apply stands_if. induction (st_pattern_list st) as [|t l IH]; [apply stands_nil|].
  cbn [flat_map map]. change ((120%N, Some t) :: map (fun t0 => (120%N, Some t0)) l) with ([(120%N, Some t)] ++ map (fun t0 : str => (120%N, Some t0)) l).
  apply stands_app; [stands_concrete|exact IH].
Qed.

(** Appending to a process that has its program. *)
Lemma append_on p a : kp_program p <> [] -> p << a = mk_kp (kp_program p) (kp_args p ++ [a]) (kp_dir p) (kp_env p).
Proof. intros H. unfold append_arg. destruct (kp_program p); [now elim H|reflexivity]. Qed.
Definition add_args (p : kprocess) (l : list str) : kprocess := mk_kp (kp_program p) (kp_args p ++ l) (kp_dir p) (kp_env p).
Lemma add_args_nil p : add_args p [] = p.
Proof. destruct p. unfold add_args. cbn. now rewrite app_nil_r. Qed.
Lemma add_args_app p a b : add_args (add_args p a) b = add_args p (a ++ b).
Proof. unfold add_args. cbn. now rewrite app_assoc. Qed.
Lemma append_add p l a : kp_program p <> [] -> add_args p l << a = add_args p (l ++ [a]).
Proof. intros H. rewrite append_on by exact H. unfold add_args. cbn. now rewrite app_assoc. Qed.
Lemma append_if_add b p l (a : string) : kp_program p <> [] -> append_if b (lit a) (add_args p l) = add_args p (l ++ flag_args b a).
Proof. intros H. destruct b; cbn [append_if flag_args]; [now apply append_add|now rewrite app_nil_r]. Qed.
Lemma patterns_add p l ts : kp_program p <> [] -> fold_left (fun p it => p << lit "-x" << it) ts (add_args p l) = add_args p (l ++ flat_map (fun t => [lit "-x"; t]) ts).
Proof.
  intros H. revert l. induction ts as [|t ts IH]; intros l; cbn [fold_left flat_map]; [now rewrite app_nil_r|].
  rewrite !append_add by exact H. rewrite IH. f_equal. now rewrite <- !app_assoc.
Qed.
Definition the_program (st : settings) : str := match st_program st with [] => lit "diff" | _ => st_program st end.
Lemma the_program_some st : the_program st <> [].
Proof. unfold the_program. destruct (st_program st); discriminate. Qed.
Lemma command_line_ok st env : write_command_line st (mk_kp [] [] [] env) = mk_kp (the_program st) (setting_args st) [] env.
Proof.
  unfold write_command_line. set (p0 := mk_kp (the_program st) [] [] env).
  assert (P : kp_program p0 <> []) by apply the_program_some.
  assert (E : match st_program st with [] => mk_kp [] [] [] env << lit "diff" | _ => mk_kp [] [] [] env << st_program st end = p0).
  { unfold p0, the_program. destruct (st_program st); reflexivity. }
  rewrite E.
  assert (F : (if Z.eqb (st_format st) 4 then p0 << lit "-U" << number (st_context st)
           else if Z.eqb (st_format st) 0 then p0 << lit "-C" << number (st_context st)
           else if Z.eqb (st_format st) 3 then p0 << lit "-n"
           else if Z.eqb (st_format st) 1 then p0 << lit "-e"
           else if Z.eqb (st_format st) 5 then p0 << lit "-y"
           else p0) = add_args p0 (format_args st)).
  { unfold format_args. assert (A0 : forall a, p0 << a = add_args p0 [a]) by (intros a; now rewrite append_on).
    repeat (destruct (Z.eqb _ _); [rewrite A0, ?append_add by exact P; reflexivity|]). now rewrite add_args_nil. }
  rewrite F. rewrite !append_if_add by exact P. cbv zeta.
  assert (I : forall l, (if (st_regexp st && negb (Nat.eqb (length (st_regexp_text st)) 0))%bool then add_args p0 l << lit "-I" << st_regexp_text st else add_args p0 l)
    = add_args p0 (l ++ if text_on (st_regexp st) (st_regexp_text st) then [lit "-I"; st_regexp_text st] else [])).
  { intros l. unfold text_on. destruct (_ && _)%bool; [rewrite !append_add by exact P; now rewrite <- app_assoc|now rewrite app_nil_r]. }
  rewrite I. rewrite !append_if_add by exact P.
  assert (X : forall l, (if st_patterns st then fold_left (fun p it => p << lit "-x" << it) (st_pattern_list st) (add_args p0 l) else add_args p0 l) =
    add_args p0 (l ++ if st_patterns st then flat_map (fun t => [lit "-x"; t]) (st_pattern_list st) else [])).
  { intros l. destruct (st_patterns st); [now apply patterns_add|now rewrite app_nil_r]. }
  rewrite X.
  assert (Y : forall l, (if (st_file st && negb (Nat.eqb (length (st_file_url st)) 0))%bool then add_args p0 l << lit "-X" << st_file_url st else add_args p0 l)
    = add_args p0 (l ++ if text_on (st_file st) (st_file_url st) then [lit "-X"; st_file_url st] else [])).
  { intros l. unfold text_on. destruct (st_file st && _)%bool; [rewrite !append_add by exact P; rewrite <- app_assoc; reflexivity|now rewrite app_nil_r]. }
  rewrite Y. unfold add_args, p0, setting_args. cbn [kp_program kp_args kp_dir kp_env]. f_equal. cbn [app]. now rewrite <- !app_assoc.
Qed.

(** Decimal texts. *)
Lemma decimal_digits t acc : forallb is_digit t = true -> decimal_value acc t = Some (digits_value acc t).
Proof.
  revert acc. induction t as [|c t IH]; intros acc H; [reflexivity|]. cbn [forallb] in H. apply andb_prop in H as [A B].
  cbn [decimal_value digits_value]. unfold is_digit in A. rewrite A. now apply IH.
Qed.
Lemma number_negative n : n < 0 -> exists u, number n = 45%N :: u /\ u <> [] /\ forallb is_digit u = true /\ digits_value 0 u = - n.
Proof.
  intros H. unfold number. destruct (Z.ltb_spec n 0); [|lia].
  destruct (number_aux_ok (S (Z.to_nat (Z.log2_up (- n)))) (- n) []) as (A & B & C); [|lia|reflexivity|].
  - split; [lia|]. rewrite Nat2Z.inj_succ, Z2Nat.id by apply Z.log2_up_nonneg.
    pose proof (Z.log2_up_nonneg (- n)).
    assert (- n <= 2 ^ Z.log2_up (- n)). { destruct (Z.eq_dec (- n) 1) as [->|]; [now cbn|]. apply Z.log2_up_spec. lia. }
    rewrite Z.pow_succ_r by lia. lia.
  - eexists. split; [reflexivity|]. split; [exact B|]. split; [exact A|]. exact C.
Qed.
Lemma number_decimal n : is_decimal (number n) n.
Proof.
  destruct (Z.ltb_spec n 0) as [H|H].
  - right. split; [exact H|]. destruct (number_negative n H) as (u & E & N & D & V). exists u. split; [exact E|]. split; [exact N|]. now rewrite decimal_digits, V.
  - left. split; [exact H|]. destruct (number_ok n H) as [[N D] V]. split; [exact N|]. now rewrite decimal_digits, V.
Qed.

(** Every option is asked for, and every option asked for is there. *)
Lemma text_on_true b t : text_on b t = true <-> b = true /\ t <> [].
Proof. unfold text_on. destruct b, t; cbn; split; try discriminate; try (intros [? ?]; congruence); try (intros _; split; congruence). Qed.
Lemma options_wanted st c a : In (c, a) (setting_options st) -> wanted st c a.
Proof.
  unfold setting_options, options_1. rewrite !in_app_iff. intros H.
  repeat match goal with H : _ \/ _ |- _ => destruct H as [H|H] end;
    try (unfold flag_options in H; match type of H with In _ (if ?b then _ else _) => destruct b eqn:E end; [|now elim H]; destruct H as [H|[]]; inversion H; subst; constructor; exact E).
  - unfold format_options in H. pose proof (number_decimal (st_context st)) as D.
    repeat (match type of H with In _ (if Z.eqb ?a ?b then _ else _) => destruct (Z.eqb_spec a b) end; [destruct H as [H|[]]; inversion H; subst; now constructor|]). now elim H.
  - destruct (text_on _ _) eqn:E; [|now elim H]. apply text_on_true in E as [E1 E2]. destruct H as [H|[]]. inversion H; subst. now constructor.
  - unfold options_x in H. destruct (st_patterns st) eqn:E; [|now elim H]. apply in_map_iff in H as (t & H & I). inversion H; subst. now constructor.
  - unfold options_2 in H. destruct (text_on _ _) eqn:E; [|now elim H]. apply text_on_true in E as [E1 E2]. destruct H as [H|[]]. inversion H; subst. now constructor.
Qed.
Lemma wanted_option st c a : wanted st c a -> exists a', In (c, a') (setting_options st).
Proof.
  intros W. unfold setting_options, options_1, options_x, options_2, format_options, flag_options. destruct W as [t F D|t F D|F|F|F|F|F|F|F|F|F|F|F|F|F|F|F T|t F I|F T];
    try (rewrite F; eexists; cbn -[number]; repeat (rewrite in_app_iff); cbn; now eauto 30).
  - assert (E : text_on (st_regexp st) (st_regexp_text st) = true) by (now apply text_on_true). rewrite E. eexists. repeat rewrite in_app_iff. cbn. eauto 30.
  - rewrite F. exists (Some t). rewrite !in_app_iff. right. left. apply in_map_iff. now exists t.
  - assert (E : text_on (st_file st) (st_file_url st) = true) by (now apply text_on_true). rewrite E. eexists. repeat rewrite in_app_iff. cbn. eauto 30.
Qed.

(** No option twice. *)
Inductive sub : list chr -> list chr -> Prop :=
| sub_nil l : sub [] l
| sub_keep c a b : sub a b -> sub (c :: a) (c :: b)
| sub_skip c a b : sub a b -> sub a (c :: b).
Lemma sub_in a b c : sub a b -> In c a -> In c b.
Proof. induction 1; cbn; [easy|intros [->|H']; auto|auto]. Qed.
Lemma sub_nodup a b : sub a b -> NoDup b -> NoDup a.
Proof.
  induction 1 as [l|c a b S IH|c a b S IH]; intros N; [constructor| |]; inversion N; subst; auto.
  constructor; [|auto]. intros H. now apply (sub_in _ _ _ S) in H.
Qed.
Lemma sub_refl a : sub a a.
Proof. induction a; now constructor. Qed.
Lemma sub_app a b c d : sub a b -> sub c d -> sub (a ++ c) (b ++ d).
Proof.
  induction 1 as [l|x a b S IH|x a b S IH]; intros H; cbn [app]; [|constructor; auto|apply sub_skip; auto].
  induction l as [|y l IHl]; [exact H|]. cbn. now apply sub_skip.
Qed.
Definition letters_1 : list chr := map (fun c => c) [85;67;110;101;121;72;98;119;66;69;100;105;73;112;116;114;78]%N.
Lemma flag_sub b c : sub (map fst (flag_options b c)) [c].
Proof. destruct b; [apply sub_refl|apply sub_nil]. Qed.
Lemma options_1_letters st : sub (map fst (options_1 st)) letters_1.
Proof.
  unfold options_1. rewrite !map_app.
  change letters_1 with (([85;67;110;101;121] ++ [72] ++ [98] ++ [119] ++ [66] ++ [69] ++ [100] ++ [105] ++ [73] ++ [112] ++ [116] ++ [114] ++ [78])%N).
  apply sub_app.
  { unfold format_options. repeat (destruct (Z.eqb _ _); [cbn; repeat constructor|]). constructor. }
  do 7 (apply sub_app; [apply flag_sub|]). apply sub_app; [destruct (text_on _ _); [apply sub_refl|apply sub_nil]|].
  do 3 (apply sub_app; [apply flag_sub|]). apply flag_sub.
Qed.
Definition not_x (o : chr * option str) : bool := negb (N.eqb (fst o) 120).
Lemma filter_all {A} (f : A -> bool) l : (forall x, In x l -> f x = true) -> filter f l = l.
Proof. induction l as [|x l IH]; intros H; [reflexivity|]. cbn. rewrite (H x) by now left. now rewrite IH by (intros y I; apply H; now right). Qed.
Lemma filter_none {A} (f : A -> bool) l : (forall x, In x l -> f x = false) -> filter f l = [].
Proof. induction l as [|x l IH]; intros H; [reflexivity|]. cbn. rewrite (H x) by now left. now rewrite IH by (intros y I; apply H; now right). Qed.
Lemma options_1_not_x st o : In o (options_1 st) -> not_x o = true.
Proof.
  intros H. assert (I : In (fst o) letters_1) by (apply (sub_in _ _ _ (options_1_letters st)), in_map, H).
  unfold not_x. destruct (N.eqb_spec (fst o) 120) as [E|]; [|reflexivity]. rewrite E in I. exfalso. cbn in I. repeat (destruct I as [I|I]; [discriminate|]). exact I.
Qed.
Lemma options_2_not_x st o : In o (options_2 st) -> not_x o = true.
Proof. unfold options_2. destruct (text_on _ _); [|now intros []]. now intros [<-|[]]. Qed.
Lemma options_x_x st o : In o (options_x st) -> not_x o = false.
Proof. unfold options_x. destruct (st_patterns st); [|now intros []]. intros H. apply in_map_iff in H as (t & <- & _). reflexivity. Qed.
Lemma others_once st : NoDup (map fst (filter not_x (setting_options st))).
Proof.
  unfold setting_options. rewrite !filter_app, (filter_all _ _ (options_1_not_x st)), (filter_none _ _ (options_x_x st)), (filter_all _ _ (options_2_not_x st)).
  cbn [app]. rewrite map_app. apply (sub_nodup _ (letters_1 ++ [88%N])).
  - apply sub_app; [apply options_1_letters|]. unfold options_2. destruct (text_on _ _); [apply sub_refl|apply sub_nil].
  - cbv. repeat constructor; cbn; intuition discriminate.
Qed.
Lemma excludes_in_order st : map snd (filter (fun o => N.eqb (fst o) 120) (setting_options st)) = if st_patterns st then map Some (st_pattern_list st) else [].
Proof.
  unfold setting_options. rewrite !filter_app, (filter_none _ (options_1 st)), (filter_none _ (options_2 st)).
  - rewrite app_nil_r. cbn [app]. unfold options_x. destruct (st_patterns st); [|reflexivity].
    rewrite filter_all; [now rewrite map_map|]. intros o H. apply in_map_iff in H as (t & <- & _). reflexivity.
  - intros o H. apply options_2_not_x in H. unfold not_x in H. now destruct (N.eqb _ _).
  - intros o H. apply options_1_not_x in H. unfold not_x in H. now destruct (N.eqb _ _).
Qed.
