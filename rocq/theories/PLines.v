(** Reading line by line, for any input: commands of normal diffs. *)
From Coq Require Import String Permutation.
From Verif Require Import Base QtStr Lev Diff Regex Patterns Parser SpecEdit SpecInline SpecPatch SpecParse SpecLines
  PRegex PLev PHistory PEditLines PParse PUnified PHeaders PFileHeads PUnifiedDoc PFuel PAnyInput PNormal.
Local Open Scope Z_scope.

(** * Lines *)
Lemma line_inv mark l c : full_match (T mark ~~ RGroup 1 (star any) ~~ nl) l = Some c ->
  exists t, one_line t /\ l = lit mark ++ t ++ [NL] /\ captured 1 c = t.
Proof.
  unfold full_match. intros H. rewrite m_seq in H. unfold T in H. apply i_text in H as (s & -> & H).
  rewrite m_seq, m_group in H. unfold star, any in H. apply i_star in H as (w & rest & -> & W & H). apply not_nl_any in W.
  unfold nl in H. apply i_is in H as (r & -> & H). apply end_inv in H as [-> ->]. exists w. split; [exact W|]. split; [reflexivity|].
  cbn [captured Nat.eqb]. apply group_text.
Qed.
Lemma line_has mark l : has_match (T mark ~~ RGroup 1 (star any) ~~ nl) l = true <-> exists t, one_line t /\ l = lit mark ++ t ++ [NL].
Proof.
  unfold has_match. split.
  - destruct (full_match _ _) as [c|] eqn:E; [|discriminate]. intros _. apply line_inv in E as (t & A & B & _). eauto.
  - intros (t & A & ->). destruct (line_forward mark t A) as (c & -> & _). reflexivity.
Qed.
Lemma take_inv mark ls : forall ts rest, take_matching (T mark ~~ RGroup 1 (star any) ~~ nl) ls = (ts, rest) ->
  ls = run_of mark ts ++ rest /\ Forall one_line ts /\ no_more mark rest.
Proof.
  induction ls as [|l ls IH]; intros ts rest H; cbn [take_matching] in H.
  - injection H as <- <-. split; [reflexivity|]. split; [constructor|]. intros t r _ E. discriminate.
  - destruct (full_match _ l) as [c|] eqn:E.
    + destruct (take_matching _ ls) as [ts' r'] eqn:E2. injection H as <- <-. destruct (IH _ _ eq_refl) as (-> & F & N).
      apply line_inv in E as (t & A & -> & ->). split; [reflexivity|]. split; [constructor; assumption|exact N].
    + injection H as <- <-. split; [reflexivity|]. split; [constructor|]. intros t r A X. injection X as -> ->.
      destruct (line_forward mark t A) as (c & M & _). congruence.
Qed.
Lemma divider_iff l : has_match normal_divider l = true <-> l = lit "---" ++ [NL].
Proof.
  split; [|intros ->; reflexivity]. unfold has_match. destruct (full_match _ _) as [c|] eqn:E; [|discriminate]. intros _.
  unfold full_match, normal_divider in E. rewrite m_seq in E. unfold T in E. apply i_text in E as (s & -> & E).
  unfold nl in E. apply i_is in E as (r & -> & E). apply end_inv in E as [-> _]. reflexivity.
Qed.

(** * Command lines *)
Lemma trailing_split (w u : str) : forallb is_digit w = true -> w <> [] -> one_line u ->
  exists m x, w ++ u = m ++ x /\ digit_string m /\ trailing x.
Proof.
  revert w. induction u as [|c u IH]; intros w W NE N.
  - exists w, []. repeat split; auto. intros ? ? E; discriminate.
  - destruct (is_digit c) eqn:D.
    + destruct (IH (w ++ [c])) as (m & x & E & M & T).
      * rewrite forallb_app, W. cbn. now rewrite D.
      * destruct w; discriminate.
      * intros I. apply N. right. exact I.
      * exists m, x. rewrite <- app_assoc in E. auto.
    + exists w, (c :: u). repeat split; auto. intros ? ? E. injection E as <- <-. exact D.
Qed.
Lemma second_comma r : second r <-> comma_part r.
Proof.
  unfold second, comma_part, digit_string. split; (intros [->|(k & H)]; [left; reflexivity|right; exists k]); tauto.
Qed.
Lemma i_comma (R : Type) g (k : str -> caps -> option R) s c r : matches (comma_digits g) k s c = Some r ->
  exists w rest c', comma_part w /\ s = w ++ rest /\ k rest c' = Some r /\ (forall i, i <> g -> captured i c' = captured i c).
Proof.
  unfold comma_digits. rewrite m_group. intros H. apply i_alt in H as [H|[_ H]].
  - rewrite m_eps in H. exists [], s. eexists. split; [left; reflexivity|]. split; [reflexivity|]. split; [exact H|].
    intros i NE. cbn [captured]. destruct (Nat.eqb_spec i g); congruence.
  - rewrite m_seq in H. unfold T in H. apply i_text in H as (s' & -> & H). apply i_digits in H as (w & rest & -> & W1 & W2 & H).
    exists (lit "," ++ w), rest. eexists. split; [right; eauto|]. split; [reflexivity|]. split; [exact H|].
    intros i NE. cbn [captured]. destruct (Nat.eqb_spec i g); congruence.
Qed.
Lemma removed_any n w m x : digit_string n -> digit_string m -> comma_part w -> trailing x ->
  exists c, full_match normal_removed_header (n ++ w ++ lit "d" ++ m ++ x ++ [NL]) = Some c /\ captured 1 c = n /\ captured 3 c = m.
Proof.
  intros [N1 N2] [M1 M2] HW [X1 X2]. eexists. split.
  - unfold full_match, normal_removed_header. rewrite m_seq, m_group. unfold digits, digit at 1.
    apply s_plus_longest; [exact N1|exact N2| |].
    { destruct HW as [->|(d & -> & _)]; reflexivity. }
    rewrite m_seq. change (lit "d" ++ m ++ x ++ [NL]) with (100%N :: (m ++ x ++ [NL])). apply comma_forward; [exact HW|discriminate|reflexivity| |reflexivity].
    change (100%N :: (m ++ x ++ [NL])) with (lit "d" ++ (m ++ x ++ [NL])).
    rewrite m_seq. unfold T at 1. rewrite s_text, m_seq, m_group. unfold digits, digit.
    apply s_plus_longest; [exact M1|exact M2| |].
    { destruct x as [|y z]; [reflexivity|]. exact (X2 y z eq_refl). }
    erewrite any_rest; [reflexivity|exact X1|]. reflexivity.
  - rewrite ?group_text. cbn [captured Nat.eqb]. rewrite ?group_text. auto.
Qed.
Lemma changed_any n w m x : digit_string n -> digit_string m -> comma_part w -> trailing x ->
  exists c, full_match normal_changed_header (n ++ w ++ lit "c" ++ m ++ x ++ [NL]) = Some c /\ captured 1 c = n /\ captured 3 c = m.
Proof.
  intros [N1 N2] [M1 M2] HW [X1 X2]. eexists. split.
  - unfold full_match, normal_changed_header. rewrite m_seq, m_group. unfold digits, digit at 1.
    apply s_plus_longest; [exact N1|exact N2| |].
    { destruct HW as [->|(d & -> & _)]; reflexivity. }
    rewrite m_seq. change (lit "c" ++ m ++ x ++ [NL]) with (99%N :: (m ++ x ++ [NL])). apply comma_forward; [exact HW|discriminate|reflexivity| |reflexivity].
    change (99%N :: (m ++ x ++ [NL])) with (lit "c" ++ (m ++ x ++ [NL])).
    rewrite m_seq. unfold T at 1. rewrite s_text, m_seq, m_group. unfold digits, digit.
    apply s_plus_longest; [exact M1|exact M2| |].
    { destruct x as [|y z]; [reflexivity|]. exact (X2 y z eq_refl). }
    rewrite m_seq. unfold comma_digits. rewrite m_group, m_alt, m_eps.
    erewrite any_rest; [reflexivity|exact X1|]. reflexivity.
  - rewrite ?group_text. cbn [captured Nat.eqb]. rewrite ?group_text. auto.
Qed.
(** What is left after the last number of a command. *)
Lemma rest_line (w u : str) : forallb is_digit w = true -> w <> [] -> one_line u -> exists m x, w ++ u ++ [NL] = m ++ x ++ [NL] /\ digit_string m /\ trailing x.
Proof.
  intros W NE N. destruct (trailing_split w u W NE N) as (m & x & E & M & T). exists m, x. split; [|auto]. rewrite !app_assoc, E. reflexivity.
Qed.
Lemma any_end_inv g (s : str) c c' : matches (RGroup g (star any) ~~ nl) (fun (s' : str) (c : caps) => match s' with [] => Some c | _ :: _ => None end) s c = Some c' ->
  exists u, one_line u /\ s = u ++ [NL].
Proof.
  intros H. rewrite m_seq, m_group in H. unfold star, any in H. apply i_star in H as (w & rest & -> & W & H). apply not_nl_any in W.
  unfold nl in H. apply i_is in H as (r & -> & H). apply end_inv in H as [-> _]. eauto.
Qed.
Lemma comma_one_line w : comma_part w -> one_line w.
Proof. apply comma_no_nl. Qed.
Lemma added_shape l c : full_match normal_added_header l = Some c -> exists n m x, l = n ++ lit "a" ++ m ++ x ++ [NL] /\ digit_string n /\ digit_string m /\ trailing x.
Proof.
  unfold full_match, normal_added_header. intros H. rewrite m_seq, m_group in H.
  apply i_digits in H as (n & r1 & -> & N1 & N2 & H). rewrite m_seq in H. unfold T at 1 in H. apply i_text in H as (s & -> & H).
  rewrite m_seq, m_group in H. apply i_digits in H as (m & r2 & -> & M1 & M2 & H). rewrite m_seq in H.
  apply i_comma in H as (w & r3 & c' & W & -> & H & _). apply any_end_inv in H as (u & U & ->).
  destruct (rest_line m (w ++ u) M2 M1) as (m' & x & E & M' & T).
  { intros I. apply in_app_or in I as [I|I]; [exact (comma_one_line _ W I)|exact (U I)]. }
  exists n, m', x. rewrite <- app_assoc in E. rewrite E. split; [reflexivity|]. split; [split; assumption|auto].
Qed.
Lemma removed_shape l c : full_match normal_removed_header l = Some c ->
  exists n w m x, l = n ++ w ++ lit "d" ++ m ++ x ++ [NL] /\ digit_string n /\ comma_part w /\ digit_string m /\ trailing x.
Proof.
  unfold full_match, normal_removed_header. intros H. rewrite m_seq, m_group in H.
  apply i_digits in H as (n & r1 & -> & N1 & N2 & H). rewrite m_seq in H.
  apply i_comma in H as (w & r3 & c' & W & -> & H & _). rewrite m_seq in H. unfold T at 1 in H. apply i_text in H as (s & -> & H).
  rewrite m_seq, m_group in H. apply i_digits in H as (m & r2 & -> & M1 & M2 & H). apply any_end_inv in H as (u & U & ->).
  destruct (rest_line m u M2 M1 U) as (m' & x & E & M' & T).
  exists n, w, m', x. rewrite E. split; [reflexivity|]. split; [split; assumption|auto].
Qed.
Lemma changed_shape l c : full_match normal_changed_header l = Some c ->
  exists n w m x, l = n ++ w ++ lit "c" ++ m ++ x ++ [NL] /\ digit_string n /\ comma_part w /\ digit_string m /\ trailing x.
Proof.
  unfold full_match, normal_changed_header. intros H. rewrite m_seq, m_group in H.
  apply i_digits in H as (n & r1 & -> & N1 & N2 & H). rewrite m_seq in H.
  apply i_comma in H as (w & r3 & c' & W & -> & H & _). rewrite m_seq in H. unfold T at 1 in H. apply i_text in H as (s & -> & H).
  rewrite m_seq, m_group in H. apply i_digits in H as (m & r2 & -> & M1 & M2 & H). rewrite m_seq in H.
  apply i_comma in H as (w2 & r3 & c2 & W2 & -> & H & _). apply any_end_inv in H as (u & U & ->).
  destruct (rest_line m (w2 ++ u) M2 M1) as (m' & x & E & M' & T).
  { intros I. apply in_app_or in I as [I|I]; [exact (comma_one_line _ W2 I)|exact (U I)]. }
  exists n, w, m', x. rewrite <- app_assoc in E. rewrite E. split; [reflexivity|]. split; [split; assumption|auto].
Qed.
Lemma command_at l ls ty a b : command_line l ty a b -> normal_hunk_header_at (l :: ls) = Some (ty, a, b, ls).
Proof.
  intros H. cbn [normal_hunk_header_at]. destruct H as [n m x N M X|n r m x N R M X|n r m x N R M X].
  - destruct (added_forward n m x N M) as (c & -> & -> & ->); [apply X|apply X|]. rewrite !to_int_reads by assumption. reflexivity.
  - apply second_comma in R.
    assert (full_match normal_added_header (n ++ r ++ lit "d" ++ m ++ x ++ [NL]) = None) as ->.
    { destruct N as [_ N]. destruct R as [->|(d & -> & _)]; cbn [app lit Ascii.N_of_ascii]; apply not_added; auto; discriminate. }
    destruct (removed_any n r m x N M R X) as (c & -> & -> & ->). rewrite !to_int_reads by assumption. reflexivity.
  - apply second_comma in R.
    assert (full_match normal_added_header (n ++ r ++ lit "c" ++ m ++ x ++ [NL]) = None) as ->.
    { destruct N as [_ N]. destruct R as [->|(d & -> & _)]; cbn [app lit Ascii.N_of_ascii]; apply not_added; auto; discriminate. }
    assert (full_match normal_removed_header (n ++ r ++ lit "c" ++ m ++ x ++ [NL]) = None) as ->.
    { destruct N as [_ N]. change (lit "c" ++ m ++ x ++ [NL]) with (99%N :: (m ++ x ++ [NL])). apply not_removed; auto; discriminate. }
    destruct (changed_any n r m x N M R X) as (c & -> & -> & ->). rewrite !to_int_reads by assumption. reflexivity.
Qed.
Lemma at_command ls ty a b ls' : normal_hunk_header_at ls = Some (ty, a, b, ls') -> exists l, ls = l :: ls' /\ command_line l ty a b.
Proof.
  intros H. destruct ls as [|l ls]; [discriminate|].
  assert (E : exists ty a b, command_line l ty a b).
  { cbn [normal_hunk_header_at] in H. destruct (full_match normal_added_header l) as [c|] eqn:E1.
    - apply added_shape in E1 as (n & m & x & -> & N & M & X). do 3 eexists. apply cl_add; assumption.
    - destruct (full_match normal_removed_header l) as [c|] eqn:E2.
      + apply removed_shape in E2 as (n & w & m & x & -> & N & W & M & X). apply second_comma in W. do 3 eexists. apply cl_delete; assumption.
      + destruct (full_match normal_changed_header l) as [c|] eqn:E3; [|discriminate].
        apply changed_shape in E3 as (n & w & m & x & -> & N & W & M & X). apply second_comma in W. do 3 eexists. apply cl_change; assumption. }
  destruct E as (ty' & a' & b' & C). pose proof (command_at l ls _ _ _ C) as E. rewrite H in E. injection E as -> -> -> ->. exists l. auto.
Qed.
Lemma at_no_command ls : normal_hunk_header_at ls = None -> forall l rest' ty a b, ls = l :: rest' -> ~ command_line l ty a b.
Proof. intros H l r ty a b -> C. rewrite (command_at _ _ _ _ _ C) in H. discriminate. Qed.

(** * Commands *)
Lemma command_body_ok ty a b ls m m' rest hs : contents m hs -> (ty = Unchanged -> False) ->
  normal_hunk_body ty a b ls m = Ok (m', rest) ->
  exists body old new h d, ls = body ++ rest /\ command_body ty body old new rest /\ h_src h = a /\ h_dst h = b /\ h_function h = [] /\ h_type h = HNormal /\
    contiguous a b [d] /\ shows d ty old new /\ pristine d /\ contents m' (hs ++ [(h, [d])]) /\
    (forall st, with_contents m' [] [] st = with_contents m [] [] st).
Proof.
  intros HC NU H.
  assert (G : forall sl dl body, (do m <- add_parsed_hunk m a b [] [with_texts sl dl (new_diff a b ty)]; Ok (m, rest)) = Ok (m', rest) ->
    ls = body ++ rest -> command_body ty body sl dl rest ->
    exists body old new h d, ls = body ++ rest /\ command_body ty body old new rest /\ h_src h = a /\ h_dst h = b /\ h_function h = [] /\ h_type h = HNormal /\
    contiguous a b [d] /\ shows d ty old new /\ pristine d /\ contents m' (hs ++ [(h, [d])]) /\
    (forall st, with_contents m' [] [] st = with_contents m [] [] st)).
  { intros sl dl body E EL CB. rewrite add_parsed_hunk_ok in E. cbn [bind] in E. injection E as <-.
    set (d := with_texts sl dl (new_diff a b ty)). exists body, sl, dl.
    exists (mk_hunk a b [] HNormal (seq (length (dm_store m)) (length [d]))), (linked d).
    split; [exact EL|]. split; [exact CB|]. do 4 (split; [reflexivity|]).
    assert (K : linked d = set_connected true d) by (unfold linked, d; destruct ty; try reflexivity; exfalso; exact (NU eq_refl)).
    rewrite K. split; [cbn; auto|]. split; [split; [reflexivity|split; cbn; apply lines_of_new]|].
    split; [unfold pristine, d, is_context; destruct ty; [| | |exfalso; exact (NU eq_refl)]; repeat split|].
    split; [rewrite <- K; apply (contents_add m hs a b [] [d] HC)|reflexivity]. }
  unfold normal_hunk_body in H. destruct ty; [| | |exfalso; exact (NU eq_refl)].
  - destruct (take_matching normal_removed ls) as [sl ls1] eqn:E1. apply take_inv in E1 as (-> & F1 & N1).
    destruct ls1 as [|l ls2]; [|destruct (has_match normal_divider l) eqn:ED].
    + assert (X : rest = []) by (destruct (add_parsed_hunk _ _ _ _ _); [injection H as _ <-; reflexivity|discriminate|discriminate]). subst rest.
      apply (G sl [] (run_of "< " sl)); [exact H|reflexivity|]. apply cb_undivided; auto. intros r E; discriminate.
    + apply divider_iff in ED as ->. destruct (take_matching normal_added ls2) as [dl ls3] eqn:E2. apply take_inv in E2 as (-> & F2 & N2).
      assert (X : rest = ls3) by (destruct (add_parsed_hunk _ _ _ _ _); [injection H as _ <-; reflexivity|discriminate|discriminate]). subst rest.
      apply (G sl dl (run_of "< " sl ++ [lit "---" ++ [NL]] ++ run_of "> " dl)); [exact H|rewrite <- !app_assoc; reflexivity|]. apply cb_change; auto.
    + assert (X : rest = l :: ls2) by (destruct (add_parsed_hunk _ _ _ _ _); [injection H as _ <-; reflexivity|discriminate|discriminate]). subst rest.
      apply (G sl [] (run_of "< " sl)); [exact H|reflexivity|]. apply cb_undivided; auto. intros r E. apply (f_equal (hd [])) in E. cbn [hd] in E.
      rewrite (proj2 (divider_iff l) E) in ED. discriminate.
  - destruct (take_matching normal_added ls) as [dl ls3] eqn:E2. apply take_inv in E2 as (-> & F2 & N2).
    assert (X : rest = ls3) by (destruct (add_parsed_hunk _ _ _ _ _); [injection H as _ <-; reflexivity|discriminate|discriminate]). subst rest.
    apply (G [] dl (run_of "> " dl)); [exact H|reflexivity|]. apply cb_add; auto.
  - destruct (take_matching normal_removed ls) as [sl ls1] eqn:E1. apply take_inv in E1 as (-> & F1 & N1).
    assert (X : rest = ls1) by (destruct (add_parsed_hunk _ _ _ _ _); [injection H as _ <-; reflexivity|discriminate|discriminate]). subst rest.
    apply (G sl [] (run_of "< " sl)); [exact H|reflexivity|]. apply cb_delete; auto.
Qed.
Lemma commands_ok fuel : forall ls m m' rest hs, contents m hs -> normal_hunks fuel ls m = Ok (m', rest) ->
  exists new, commands ls new rest /\ contents m' (hs ++ new) /\ (forall st, with_contents m' [] [] st = with_contents m [] [] st).
Proof.
  induction fuel as [|fuel IH]; intros ls m m' rest hs HC H; [discriminate|]. cbn [normal_hunks] in H.
  destruct (normal_hunk_header_at ls) as [[[[ty a] b] ls1]|] eqn:EH.
  - destruct (normal_hunk_body _ _ _ _ _) as [[m1 ls2]| |] eqn:EB; try discriminate. cbn [bind] in H.
    apply at_command in EH as (l & -> & CL).
    assert (NU : ty = Unchanged -> False) by (intros ->; inversion CL).
    apply (command_body_ok _ _ _ _ _ _ _ hs HC NU) in EB as (body & old & new & h & d & -> & CB & A1 & A2 & A3 & A4 & CT & SH & PR & HC1 & W).
    apply (IH _ _ _ _ _ HC1) in H as (more & CM & HC2 & W2). exists ((h, [d]) :: more). split; [|split].
    + eapply cs_command; eauto.
    + rewrite <- app_assoc in HC2. exact HC2.
    + intros st. rewrite W2. apply W.
  - injection H as <- <-. exists []. split; [apply cs_end; now apply at_no_command|]. rewrite app_nil_r. auto.
Qed.
(** Commands always show something. *)
Lemma commands_listed ls hs rest : commands ls hs rest -> forall h ds, In (h, ds) hs -> Exists (fun d => is_context d = false) ds.
Proof.
  induction 1 as [|l ty a b body old new h d ls hs rest CL _ _ _ _ _ _ [T _] _ _ IH]; intros h' ds' I; [destruct I|]. destruct I as [E|I]; [|eauto].
  injection E as <- <-. left. unfold is_context. rewrite T. now inversion CL.
Qed.
