(** Reading printed normal diffs. *)
From Coq Require Import String Permutation.
From Verif Require Import Base QtStr Lev Diff Regex Patterns Parser SpecEdit SpecInline SpecPatch SpecParse SpecText SpecUnified SpecNormal
  PRegex PHistory PParse PUnified PHeaders PFileHeads PUnifiedDoc PropsParse PropsText PUnifiedPrint PUnifiedRead.
Local Open Scope Z_scope.

(** * Headers *)
Lemma digits_sep (w n : str) x u y v : w ++ x :: u = n ++ y :: v -> forallb is_digit w = true -> forallb is_digit n = true ->
  is_digit x = false -> is_digit y = false -> w = n /\ x = y /\ u = v.
Proof.
  revert n. induction w as [|a w IH]; intros [|b n] E W N X Y; cbn [app forallb] in *.
  - injection E as -> ->. auto.
  - injection E as -> _. apply andb_prop in N as [N _]. congruence.
  - injection E as -> _. apply andb_prop in W as [W _]. congruence.
  - injection E as -> E. apply andb_prop in W as [_ W]. apply andb_prop in N as [_ N].
    destruct (IH _ E W N X Y) as (-> & -> & ->). auto.
Qed.
Lemma number_digits n : 0 <= n -> number n <> [] /\ forallb is_digit (number n) = true.
Proof. intros H. apply (number_ok n H). Qed.
Lemma to_int_number n : small n -> to_int (number n) = n.
Proof.
  intros [A B]. destruct (number_ok n A) as [D V]. rewrite to_int_reads by assumption. unfold reads, fits.
  rewrite V. destruct (Z.leb_spec n 2147483647); lia.
Qed.
(** A range text: digits, or digits, a comma and digits. *)
Lemma range_shape a n : 0 <= a -> 1 <= n -> exists w, range_text a n = number a ++ w /\
  (w = [] \/ exists k, w = lit "," ++ k /\ k <> [] /\ forallb is_digit k = true).
Proof.
  intros A B. unfold range_text. destruct (Z.eqb n 1).
  - exists []. rewrite app_nil_r. auto.
  - exists (lit "," ++ number (a + n - 1)). split; [reflexivity|]. right. exists (number (a + n - 1)). split; [reflexivity|]. apply number_digits. lia.
Qed.
Definition kend : str -> caps -> option caps := fun s' c => match s' with [] => Some c | _ :: _ => None end.
Lemma any_rest (R : Type) g (k : str -> caps -> option R) w s c r : ~ In NL w ->
  k s ((g, w) :: c) = Some r ->
  matches (RGroup g (star any) ~~ nl) k (w ++ NL :: s) c = Some r.
Proof.
  intros N K. rewrite m_seq, m_group. unfold star, any. apply m_star_longest; [now apply not_nl_any|reflexivity|].
  unfold nl. rewrite s_is, group_text. exact K.
Qed.
Lemma added_forward n (m : str) w : digit_string n -> digit_string m -> ~ In NL w -> (forall x y, w = x :: y -> is_digit x = false) ->
  exists c, full_match normal_added_header (n ++ lit "a" ++ m ++ w ++ [NL]) = Some c /\ captured 1 c = n /\ captured 2 c = m.
Proof.
  intros [N1 N2] [M1 M2] NW NH. eexists. split.
  - unfold full_match, normal_added_header. rewrite m_seq, m_group. unfold digits, digit at 1.
    apply s_plus_longest; [exact N1|exact N2|reflexivity|].
    rewrite m_seq. unfold T at 1. rewrite s_text, m_seq, m_group. unfold digits, digit.
    apply s_plus_longest; [exact M1|exact M2| |].
    { destruct w as [|x y]; [reflexivity|]. exact (NH x y eq_refl). }
    rewrite m_seq. unfold comma_digits. rewrite m_group, m_alt, m_eps.
    erewrite any_rest; [reflexivity|exact NW|]. reflexivity.
  - rewrite ?group_text. cbn [captured Nat.eqb]. rewrite ?group_text. auto.
Qed.
Lemma added_inv l c : full_match normal_added_header l = Some c -> exists n u, l = n ++ 97%N :: u /\ forallb is_digit n = true.
Proof.
  unfold full_match, normal_added_header. intros H. rewrite m_seq, m_group in H.
  apply i_digits in H as (n & rest & -> & _ & D & H). rewrite m_seq in H. unfold T at 1 in H. apply i_text in H as (s & -> & _).
  exists n, s. split; [reflexivity|exact D].
Qed.
Lemma not_added n x u : forallb is_digit n = true -> is_digit x = false -> x <> 97%N -> full_match normal_added_header (n ++ x :: u) = None.
Proof.
  intros D X NE. destruct (full_match _ _) as [c|] eqn:E; [|reflexivity]. apply added_inv in E as (n' & u' & E & D').
  apply digits_sep in E as (_ & E & _); auto; try reflexivity. congruence.
Qed.
Lemma comma_forward (R : Type) g sep w rest (k : str -> caps -> option R) c r :
  w = [] \/ (exists d, w = lit "," ++ d /\ d <> [] /\ forallb is_digit d = true) -> sep <> 44%N -> is_digit sep = false ->
  k (sep :: rest) ((g, w) :: c) = Some r ->
  (forall u c, k (44%N :: u) c = None) ->
  matches (comma_digits g) k (w ++ sep :: rest) c = Some r.
Proof.
  intros HW NS SD K NO. unfold comma_digits. rewrite m_group, m_alt, m_eps. destruct HW as [->|(d & -> & D1 & D2)].
  - cbn [app]. match goal with |- context [k (sep :: rest) ((g, ?x) :: c)] => replace x with (@nil chr); [|now rewrite Nat.sub_diag] end.
    unfold str, chr in *. rewrite K. reflexivity.
  - change ((lit "," ++ d) ++ sep :: rest) with (44%N :: (d ++ sep :: rest)). rewrite NO. rewrite m_seq. unfold T.
    change (44%N :: (d ++ sep :: rest)) with (lit "," ++ (d ++ sep :: rest)). rewrite s_text. unfold digits, digit.
    apply s_plus_longest; [exact D1|exact D2|exact SD|].
    replace (lit "," ++ d ++ sep :: rest) with ((lit "," ++ d) ++ sep :: rest) by reflexivity. rewrite group_text. exact K.
Qed.
Lemma removed_forward n w m : digit_string n -> digit_string m ->
  w = [] \/ (exists d, w = lit "," ++ d /\ d <> [] /\ forallb is_digit d = true) ->
  exists c, full_match normal_removed_header (n ++ w ++ lit "d" ++ m ++ [NL]) = Some c /\ captured 1 c = n /\ captured 3 c = m.
Proof.
  intros [N1 N2] [M1 M2] HW. eexists. split.
  - unfold full_match, normal_removed_header. rewrite m_seq, m_group. unfold digits, digit at 1.
    apply s_plus_longest; [exact N1|exact N2| |].
    { destruct HW as [->|(d & -> & _)]; reflexivity. }
    rewrite m_seq. change (lit "d" ++ m ++ [NL]) with (100%N :: (m ++ [NL])). apply comma_forward; [exact HW|discriminate|reflexivity| |reflexivity].
    change (100%N :: (m ++ [NL])) with (lit "d" ++ (m ++ [NL])).
    rewrite m_seq. unfold T at 1. rewrite s_text, m_seq, m_group. unfold digits, digit.
    apply s_plus_longest; [exact M1|exact M2|reflexivity|].
    change [NL] with ([] ++ NL :: []). erewrite any_rest; [reflexivity|intros []|]. reflexivity.
  - rewrite ?group_text. cbn [captured Nat.eqb]. rewrite ?group_text. auto.
Qed.
Lemma removed_inv l c : full_match normal_removed_header l = Some c -> exists n w u, l = n ++ w ++ 100%N :: u /\ forallb is_digit n = true /\
  (w = [] \/ (exists d, w = lit "," ++ d /\ d <> [] /\ forallb is_digit d = true)).
Proof.
  unfold full_match, normal_removed_header. intros H. rewrite m_seq, m_group in H.
  apply i_digits in H as (n & rest & -> & _ & D & H). rewrite m_seq in H. unfold comma_digits in H. rewrite m_group in H.
  apply i_alt in H as [H|[_ H]].
  - rewrite m_eps in H. rewrite m_seq in H. unfold T at 1 in H. apply i_text in H as (s & -> & _).
    exists n, [], s. repeat split; auto.
  - rewrite m_seq in H. unfold T at 1 in H. apply i_text in H as (s & -> & H). apply i_digits in H as (k & rest & -> & K1 & K2 & H).
    rewrite m_seq in H. unfold T at 1 in H. apply i_text in H as (s & -> & _).
    exists n, (lit "," ++ k), s. split; [reflexivity|]. split; [exact D|]. right. eauto.
Qed.
Definition comma_part (w : str) : Prop := w = [] \/ (exists d, w = lit "," ++ d /\ d <> [] /\ forallb is_digit d = true).
Lemma not_removed n w x u : forallb is_digit n = true -> comma_part w -> is_digit x = false -> x <> 44%N -> x <> 100%N ->
  full_match normal_removed_header (n ++ w ++ x :: u) = None.
Proof.
  intros D HW X X2 NE. destruct (full_match _ _) as [c|] eqn:E; [|reflexivity].
  apply removed_inv in E as (n' & w' & u' & E & D' & HW'). exfalso.
  destruct HW as [->|(d & -> & K1 & K2)], HW' as [->|(d' & -> & K1' & K2')]; cbn [app lit Ascii.N_of_ascii] in E.
  - apply digits_sep in E as (_ & E & _); auto; try congruence.
  - apply digits_sep in E as (_ & E & _); auto; try congruence.
  - apply digits_sep in E as (_ & E & _); auto; try discriminate.
  - apply digits_sep in E as (_ & _ & E); auto. apply digits_sep in E as (_ & E & _); auto; try congruence.
Qed.
Lemma changed_forward n w m w2 : digit_string n -> digit_string m -> comma_part w -> comma_part w2 ->
  exists c, full_match normal_changed_header (n ++ w ++ lit "c" ++ m ++ w2 ++ [NL]) = Some c /\ captured 1 c = n /\ captured 3 c = m.
Proof.
  intros [N1 N2] [M1 M2] HW HW2. eexists. split.
  - unfold full_match, normal_changed_header. rewrite m_seq, m_group. unfold digits, digit at 1.
    apply s_plus_longest; [exact N1|exact N2| |].
    { destruct HW as [->|(d & -> & _)]; reflexivity. }
    rewrite m_seq. change (lit "c" ++ m ++ w2 ++ [NL]) with (99%N :: (m ++ w2 ++ [NL])).
    apply comma_forward; [exact HW|discriminate|reflexivity| |reflexivity].
    change (99%N :: (m ++ w2 ++ [NL])) with (lit "c" ++ (m ++ w2 ++ [NL])).
    rewrite m_seq. unfold T at 1. rewrite s_text, m_seq, m_group. unfold digits, digit.
    apply s_plus_longest; [exact M1|exact M2| |].
    { destruct HW2 as [->|(d & -> & _)]; reflexivity. }
    rewrite m_seq. unfold comma_digits. rewrite m_group, m_alt, m_eps.
    erewrite any_rest; [reflexivity| |].
    { destruct HW2 as [->|(d & -> & _ & D)]; [intros []|]. intros [E|I]; [discriminate|]. now apply digits_no_nl in D. }
    reflexivity.
  - rewrite ?group_text. cbn [captured Nat.eqb]. rewrite ?group_text. auto.
Qed.
(** * Commands *)
Lemma line_forward mark t : ~ In NL t -> exists c, full_match (T mark ~~ RGroup 1 (star any) ~~ nl) (lit mark ++ t ++ [NL]) = Some c /\ captured 1 c = t.
Proof.
  intros N. eexists. split.
  - unfold full_match. rewrite m_seq. unfold T. rewrite s_text. apply any_rest; [exact N|reflexivity].
  - reflexivity.
Qed.
Lemma line_no mark (a : re) l : ~ begins mark l -> full_match (T mark ~~ a) l = None.
Proof.
  intros N. unfold full_match. rewrite m_seq. unfold T. rewrite m_text.
  assert (starts_with (lit mark) l = false) as -> by (apply starts_false; intros x ->; apply N; eexists; reflexivity). reflexivity.
Qed.
Lemma take_forward mark (ts : list str) rest : Forall (fun t => ~ In NL t) ts -> (forall l ls, rest = l :: ls -> ~ begins mark l) ->
  take_matching (T mark ~~ RGroup 1 (star any) ~~ nl) (map (fun t => lit mark ++ t ++ [NL]) ts ++ rest) = (ts, rest).
Proof.
  intros F NR. induction F as [|t ts N F IH]; cbn [map app take_matching].
  - destruct rest as [|l ls]; [reflexivity|]. cbn [take_matching]. rewrite line_no by (eapply NR; reflexivity). reflexivity.
  - destruct (line_forward mark t N) as (c & -> & ->). rewrite IH. reflexivity.
Qed.
Definition ends_command (rest : list str) : Prop := forall l ls, rest = l :: ls -> ~ begins "< " l /\ ~ begins "> " l.
Lemma digit_string_number n : small n -> digit_string (number n).
Proof. intros [A _]. apply (number_ok n A). Qed.
Lemma count_pos {A} (l : list A) : l <> [] -> 1 <= count l.
Proof. destruct l; [congruence|]. intros _. unfold count. cbn [length]. lia. Qed.
Definition cmd_body (c : ncmd) : list str := tl (cmd_text c).
Lemma comma_head w : comma_part w -> forall x y, w = x :: y -> is_digit x = false.
Proof. intros [->|(d & -> & _)] x y E; [discriminate|]. injection E as <- _. reflexivity. Qed.
Lemma comma_no_nl w : comma_part w -> ~ In NL w.
Proof. intros [->|(d & -> & _ & D)]; [intros []|]. intros [E|I]; [discriminate|]. now apply digits_no_nl in D. Qed.
Lemma cmd_header c rest : cmd_ok c ->
  normal_hunk_header_at (cmd_text c ++ rest) = Some (cmd_type c, old_number c, new_number c, cmd_body c ++ rest).
Proof.
  intros [[S1 S2] _ CO CN]. destruct c as [n m a|n m r|n m r a]; cbn [cmd_type old_number new_number old_lines new_lines] in *;
    unfold cmd_body; cbn [cmd_text tl app normal_hunk_header_at].
  - destruct (range_shape m (count a)) as (w & E & HW); [apply S2|apply count_pos, CN; discriminate|].
    destruct (added_forward (number n) (number m) w) as (c & M & C1 & C2); [now apply digit_string_number|now apply digit_string_number| | |].
    { now apply comma_no_nl. }
    { now apply comma_head. }
    rewrite E, <- app_assoc, M, C1, C2, !to_int_number by assumption. reflexivity.
  - destruct (range_shape n (count r)) as (w & E & HW); [apply S1|apply count_pos, CO; discriminate|].
    destruct (removed_forward (number n) w (number m)) as (c & M & C1 & C3); [now apply digit_string_number|now apply digit_string_number|exact HW|].
    rewrite E, <- app_assoc.
    assert (NA : full_match normal_added_header (number n ++ w ++ lit "d" ++ number m ++ [NL]) = None).
    { destruct (number_digits n) as [_ D]; [apply S1|]. destruct HW as [->|(d & -> & _)]; cbn [app lit Ascii.N_of_ascii];
        apply not_added; auto; discriminate. }
    rewrite NA, M, C1, C3, !to_int_number by assumption. reflexivity.
  - destruct (range_shape n (count r)) as (w & E & HW); [apply S1|apply count_pos, CO; discriminate|].
    destruct (range_shape m (count a)) as (w2 & E2 & HW2); [apply S2|apply count_pos, CN; discriminate|].
    destruct (changed_forward (number n) w (number m) w2) as (c & M & C1 & C3);
      [now apply digit_string_number|now apply digit_string_number|exact HW|exact HW2|].
    rewrite E, E2. rewrite <- (app_assoc (number n)), <- (app_assoc (number m)).
    destruct (number_digits n) as [_ D]; [apply S1|].
    assert (NA : full_match normal_added_header (number n ++ w ++ lit "c" ++ number m ++ w2 ++ [NL]) = None).
    { destruct HW as [->|(d & -> & _)]; cbn [app lit Ascii.N_of_ascii]; apply not_added; auto; discriminate. }
    assert (NR : full_match normal_removed_header (number n ++ w ++ lit "c" ++ number m ++ w2 ++ [NL]) = None).
    { change (lit "c" ++ number m ++ w2 ++ [NL]) with (99%N :: (number m ++ w2 ++ [NL])). apply not_removed; auto; discriminate. }
    rewrite NA, NR, M, C1, C3, !to_int_number by assumption. reflexivity.
Qed.
Lemma cmd_line_lit c s t : lit s = [c; SP] -> cmd_line c t = lit s ++ t ++ [NL].
Proof. intros ->. reflexivity. Qed.
Lemma cmd_forward c rest m hs : cmd_ok c -> ends_command rest -> contents m hs ->
  exists m' p, normal_hunk_body (cmd_type c) (old_number c) (new_number c) (cmd_body c ++ rest) m = Ok (m', rest) /\
    contents m' (hs ++ [p]) /\ cmd_is c p /\ (forall st, with_contents m' [] [] st = with_contents m [] [] st).
Proof.
  intros [_ CL CO CN] ER HC. apply Forall_app in CL as [CL1 CL2].
  set (d := with_texts (old_lines c) (new_lines c) (new_diff (old_number c) (new_number c) (cmd_type c))).
  set (ds := [d]).
  assert (E : normal_hunk_body (cmd_type c) (old_number c) (new_number c) (cmd_body c ++ rest) m =
     do m' <- add_parsed_hunk m (old_number c) (new_number c) [] [d]; Ok (m', rest)).
  { unfold normal_hunk_body, cmd_body, normal_removed, normal_added, d.
    destruct c as [n k a|n k r|n k r a]; cbn [cmd_type old_number new_number old_lines new_lines cmd_text tl] in *.
    - replace (map (cmd_line 62%N) a) with (map (fun t => lit "> " ++ t ++ [NL]) a) by (apply map_ext; reflexivity).
      rewrite take_forward; [reflexivity|exact CL2|]. intros l ls H. apply (ER l ls H).
    - replace (map (cmd_line 60%N) r) with (map (fun t => lit "< " ++ t ++ [NL]) r) by (apply map_ext; reflexivity).
      rewrite take_forward; [reflexivity|exact CL1|]. intros l ls H. apply (ER l ls H).
    - replace (map (cmd_line 60%N) r) with (map (fun t => lit "< " ++ t ++ [NL]) r) by (apply map_ext; reflexivity).
      replace (map (cmd_line 62%N) a) with (map (fun t => lit "> " ++ t ++ [NL]) a) by (apply map_ext; reflexivity).
      rewrite <- !app_assoc. rewrite take_forward; [|exact CL1|].
      2:{ intros l ls H. cbn [app] in H. injection H as <- _. intros [x E]. discriminate. }
      cbn [app]. match goal with |- context [has_match normal_divider ?l] => replace (has_match normal_divider l) with true by reflexivity end.
      rewrite take_forward; [reflexivity|exact CL2|]. intros l ls H. apply (ER l ls H). }
  rewrite E, add_parsed_hunk_ok. cbn [bind].
  exists (with_contents m
        (dm_hunks m ++ [mk_hunk (old_number c) (new_number c) [] HNormal (seq (length (dm_store m)) (length [d]))])
        (dm_diffs m ++ ids_from (length (dm_store m)) [d]) (dm_store m ++ map linked [d])).
  exists (mk_hunk (old_number c) (new_number c) [] HNormal (seq (length (dm_store m)) (length [d])), map linked [d]).
  split; [reflexivity|]. split; [now apply contents_add|]. split; [|reflexivity].
  unfold cmd_is. cbn [fst snd h_src h_dst h_function h_type]. repeat (split; [reflexivity|]).
  assert (K : linked d = set_connected true d) by (unfold linked, d; destruct c; reflexivity).
  exists (linked d). split; [reflexivity|]. rewrite K. unfold d.
  assert (TM : forall ts, Forall (fun l => ds_markers l = []) (map new_ds ts)) by (induction ts; constructor; auto).
  repeat split; cbn; try (apply lines_of_new); try (destruct c; reflexivity).
  apply Forall_app. auto.
Qed.
Definition no_command (rest : list str) : Prop := forall l ls, rest = l :: ls -> forall c x, l = c :: x -> is_digit c = false.
Lemma no_command_at rest : no_command rest -> normal_hunk_header_at rest = None.
Proof.
  intros N. destruct rest as [|l ls]; [reflexivity|]. cbn [normal_hunk_header_at].
  assert (D : forall (a : re), full_match (RGroup 1 digits ~~ a) l = None).
  { intros a. destruct (full_match _ l) as [c|] eqn:E; [|reflexivity]. unfold full_match in E.
    rewrite m_seq, m_group in E. apply i_digits in E as (w & r & -> & W & D & _). destruct w as [|x w]; [congruence|].
    cbn in D. rewrite (N _ _ eq_refl x (w ++ r) eq_refl) in D. discriminate. }
  unfold normal_added_header, normal_removed_header, normal_changed_header. rewrite !D. reflexivity.
Qed.
Lemma cmd_first c : cmd_ok c -> exists x l ls, cmd_text c = (x :: l) :: ls /\ is_digit x = true.
Proof.
  intros [[[S1 _] [S2 _]] _ _ _].
  assert (K : exists u, hd [] (cmd_text c) = number (old_number c) ++ u).
  { destruct c; cbn [cmd_text hd old_number] in *; [eexists; reflexivity| |]; unfold range_text;
      destruct (Z.eqb _ _); rewrite <- ?app_assoc; eexists; reflexivity. }
  destruct K as [u K]. destruct (number_digits (old_number c) S1) as [D1 D2]. destruct (number (old_number c)) as [|x l]; [congruence|].
  cbn in D2. apply andb_prop in D2 as [D2 _]. exists x, (l ++ u), (tl (cmd_text c)). split; [|exact D2].
  destruct c; cbn [cmd_text hd tl] in *; rewrite K; reflexivity.
Qed.
Lemma cmds_forward cs : forall fuel rest m hs, Forall cmd_ok cs -> ends_command rest -> no_command rest ->
  (length cs < fuel)%nat -> contents m hs ->
  exists m' ps, normal_hunks fuel (concat (map cmd_text cs) ++ rest) m = Ok (m', rest) /\
    contents m' (hs ++ ps) /\ Forall2 cmd_is cs ps /\
    (forall st, with_contents m' [] [] st = with_contents m [] [] st).
Proof.
  induction cs as [|c cs IH]; intros fuel rest m hs OK NE NH L HC; (destruct fuel as [|fuel]; [cbn in L; lia|]); cbn [normal_hunks].
  - exists m, []. rewrite app_nil_r. cbn [map concat app]. rewrite no_command_at by assumption.
    split; [reflexivity|]. split; [exact HC|]. split; [constructor|reflexivity].
  - inversion_clear OK as [|? ? OKc OK']. cbn [length] in L. cbn [map concat]. rewrite <- app_assoc, cmd_header by assumption.
    destruct (cmd_forward c (concat (map cmd_text cs) ++ rest) m hs OKc) as (m1 & p & B & C1 & HI & W1).
    { destruct cs as [|c2 cs]; [exact NE|]. inversion_clear OK' as [|? ? OK2 _]. destruct (cmd_first c2 OK2) as (x & l & ls & E & D).
      intros l' ls' H. cbn [map concat] in H. rewrite E in H. injection H as <- _.
      split; intros [y Y]; injection Y as -> _; discriminate. }
    { exact HC. }
    destruct (IH fuel rest m1 (hs ++ [p]) OK' NE NH ltac:(lia) C1) as (m' & ps & E & C2 & F & W2).
    exists m', (p :: ps). rewrite B. cbn [bind]. split; [exact E|].
    rewrite <- app_assoc in C2. split; [exact C2|]. split; [constructor; assumption|].
    intros st. rewrite W2. apply W1.
Qed.
