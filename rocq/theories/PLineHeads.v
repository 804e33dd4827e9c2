(** File headers of normal and context diffs, for any input. *)
From Coq Require Import String Permutation.
From Verif Require Import Base QtStr Lev Diff Regex Patterns Parser SpecEdit SpecInline SpecPatch SpecParse SpecNormal SpecLines
  PRegex PStar PLev PHistory PEditLines PParse PUnified PHeaders PFileHeads PUnifiedDoc PFuel PAnyInput PNormal PNormalDoc PLines.
Local Open Scope Z_scope.

(** * The command line of diff *)
Definition tail_re : re := RAlt REps (T "--" ~~ plus (is SP)) ~~ names_re.
Lemma tail_forward n1 n2 c : one_line n1 -> one_line n2 -> ~ In SP n2 ->
  matches tail_re kend (n1 ++ lit " " ++ n2 ++ [NL]) c = Some ((2%nat, n2) :: (1%nat, n1) :: c).
Proof.
  intros O1 O2 NS. unfold tail_re. rewrite m_seq, m_alt, m_eps.
  assert (matches names_re kend (n1 ++ lit " " ++ n2 ++ [NL]) c = Some ((2%nat, n2) :: (1%nat, n1) :: c)) as ->; [|reflexivity].
  unfold names_re. rewrite m_seq, m_group. unfold star at 1, any at 1.
  apply m_star_take; [now apply not_nl_any| |].
  - rewrite group_text, m_seq. unfold is. change (lit " " ++ n2 ++ [NL]) with ([SP] ++ n2 ++ [NL]).
    apply s_plus_longest; [discriminate|reflexivity| |].
    { destruct n2 as [|x n]; [reflexivity|]. cbn [app]. apply N.eqb_neq. intros E. apply NS. left. auto. }
    apply any_rest; [exact O2|reflexivity].
  - intros x w2 rest2 E _. cbn [lit Ascii.N_of_ascii app] in E. injection E as _ E.
    rewrite m_seq. unfold plus. rewrite m_seq. unfold is at 1. rewrite m_chr. destruct rest2 as [|y rest2]; [reflexivity|].
    destruct (N.eqb_spec SP y) as [<-|]; [|reflexivity]. exfalso.
    assert (I : In SP (n2 ++ [NL])) by (rewrite E; apply in_or_app; right; left; reflexivity).
    apply in_app_or in I as [I|[I|[]]]; [auto|discriminate].
Qed.
Lemma names_inv s c r : matches names_re kend s c = Some r -> exists t, one_line t /\ s = t ++ [NL] /\ In SP t.
Proof.
  unfold names_re. intros H. rewrite m_seq, m_group in H. unfold star at 1, any at 1 in H. apply i_star in H as (w & rest & -> & W & H).
  apply not_nl_any in W. rewrite m_seq in H. unfold is in H. apply i_plus in H as (w2 & rest2 & -> & N2 & W2 & H).
  apply any_end_inv in H as (u & U & ->). exists (w ++ w2 ++ u). split.
  - intros I. apply in_app_or in I as [I|I]; [auto|]. apply in_app_or in I as [I|I]; [|auto].
    rewrite forallb_forall in W2. apply W2 in I. discriminate.
  - split; [rewrite <- !app_assoc; reflexivity|]. destruct w2 as [|x w2]; [congruence|]. cbn [forallb] in W2. apply andb_prop in W2 as [W2 _]. apply N.eqb_eq in W2 as <-.
    apply in_or_app. right. left. reflexivity.
Qed.
Lemma tail_inv s c r : matches tail_re kend s c = Some r -> exists t, one_line t /\ s = t ++ [NL] /\ In SP t.
Proof.
  unfold tail_re. intros H. rewrite m_seq in H. apply i_alt in H as [H|[_ H]]; [rewrite m_eps in H; eapply names_inv; eauto|].
  rewrite m_seq in H. unfold T in H. apply i_text in H as (s' & -> & H). unfold is in H. apply i_plus in H as (w2 & rest2 & -> & N2 & W2 & H).
  apply names_inv in H as (t & O & -> & I). exists (lit "--" ++ w2 ++ t). split; [|split; [rewrite <- !app_assoc; reflexivity|]].
  - intros J. apply in_app_or in J as [J|J]; [vm_compute in J; intuition discriminate|]. apply in_app_or in J as [J|J]; [|auto].
    rewrite forallb_forall in W2. apply W2 in J. discriminate.
  - apply in_or_app. right. apply in_or_app. right. exact I.
Qed.
Lemma option_inv (R : Type) (k : str -> caps -> option R) s c r : matches option_re k s c = Some r ->
  exists o rest, diff_option o /\ s = o ++ lit " " ++ rest /\ k rest c = Some r.
Proof.
  unfold option_re. intros H. rewrite m_seq in H.
  assert (G : forall d, (lit d = lit "-" \/ lit d = lit "--") -> matches (T d) (matches (plus (RChr option_chr) ~~ is SP) k) s c = Some r ->
    exists o rest, diff_option o /\ s = o ++ lit " " ++ rest /\ k rest c = Some r).
  { intros d D M. unfold T in M. apply i_text in M as (s' & -> & X).
    rewrite m_seq in X. apply i_plus in X as (w & rest & -> & W1 & W2 & X). apply i_is in X as (rest' & -> & X).
    exists (lit d ++ w), rest'. split; [|split; [rewrite <- app_assoc; reflexivity|exact X]]. exists w. split; [exact W1|]. split; [now apply option_classes|].
    destruct D as [-> | ->]; auto. }
  apply i_alt in H as [H|[_ H]]; [apply (G "-"%string); auto|apply (G "--"%string); auto].
Qed.
Lemma options_inv s : forall c r, matches (star option_re) (matches tail_re kend) s c = Some r -> exists t, one_line t /\ s = t ++ [NL] /\ In SP t.
Proof.
  assert (G : forall n s c r, (length s <= n)%nat -> matches (star option_re) (matches tail_re kend) s c = Some r -> exists t, one_line t /\ s = t ++ [NL] /\ In SP t).
  { clear s. induction n as [|n IH]; intros s c r L H; unfold star in H; rewrite m_star_round in H.
    - destruct (matches option_re _ s c) as [r'|] eqn:E; [|eapply tail_inv; eauto].
      apply option_inv in E as (o & rest & O & -> & E). rewrite !app_length in L. cbn in L. lia.
    - destruct (matches option_re _ s c) as [r'|] eqn:E; [|eapply tail_inv; eauto].
      apply option_inv in E as (o & rest & O & -> & E). destruct (Nat.ltb _ _); [|discriminate].
      apply IH in E as (t & A & -> & B). 2:{ rewrite !app_length in L. cbn in L. lia. }
      exists (o ++ lit " " ++ t). split; [|split; [rewrite <- !app_assoc; reflexivity|apply in_or_app; right; left; reflexivity]].
      intros I. apply in_app_or in I as [I|I].
      + destruct O as (x & _ & X & HO). rewrite Forall_forall in X.
        assert (NX : ~ In NL x) by (intros J; apply X in J; unfold option_char, NL in J; lia).
        destruct HO as [-> | ->]; apply in_app_or in I as [I|I]; auto; vm_compute in I; intuition discriminate.
      + destruct I as [I|I]; [discriminate|auto]. }
  intros c r H. eapply G; eauto.
Qed.
Lemma option_no_blank o : diff_option o -> ~ In SP o.
Proof.
  intros (x & _ & X & HO) I. rewrite Forall_forall in X.
  assert (NX : ~ In SP x) by (intros J; apply X in J; unfold option_char, SP in J; lia).
  destruct HO as [-> | ->]; apply in_app_or in I as [I|I]; auto; vm_compute in I; intuition discriminate.
Qed.
Lemma first_same (x : chr) u v u' v' : ~ In x u -> ~ In x u' -> u ++ x :: v = u' ++ x :: v' -> u = u' /\ v = v'.
Proof.
  revert u'. induction u as [|a u IH]; intros [|b u'] N N' E; cbn [app] in E.
  - injection E as ->. auto.
  - injection E as -> _. exfalso. apply N'. left. reflexivity.
  - injection E as -> _. exfalso. apply N. left. reflexivity.
  - injection E as -> E. destruct (IH u') as [-> ->]; auto.
    + intros I. apply N. right. exact I.
    + intros I. apply N'. right. exact I.
Qed.
Lemma diff_line_match l n1 n2 : diff_line l n1 n2 -> exists c, full_match normal_diff_header l = Some c /\ captured 1 c = n1 /\ captured 2 c = n2.
Proof.
  intros [os a b F O1 O2 NS MAX]. exists [(2%nat, b); (1%nat, a)]. split; [|auto].
  change (full_match normal_diff_header) with (full_match (T "diff " ~~ star option_re ~~ tail_re)).
  unfold full_match. rewrite m_seq. unfold T at 1. rewrite s_text, m_seq. fold kend.
  change (fun (s' : str) (c : caps) => match s' with [] => Some c | _ :: _ => None end) with kend.
  set (tl := a ++ lit " " ++ b ++ [NL]). unfold star.
  induction F as [|o os O F IH]; cbn [map concat app]; rewrite m_star_round.
  - assert (matches option_re (fun s' c' => if Nat.ltb (length s') (length tl) then matches (RStar true option_re) (matches tail_re kend) s' c' else None) tl [] = None) as ->.
    { destruct (matches option_re _ tl []) as [r|] eqn:E; [|reflexivity]. exfalso. apply option_inv in E as (o & rest & O & E & M).
      destruct (Nat.ltb _ _); [|discriminate]. apply options_inv in M as (t & T1 & -> & T2).
      unfold tl in E. destruct (split_first SP a) as [N|(u & v & -> & N)].
      - change (lit " ") with [SP] in E. cbn [app] in E. apply first_same in E as [_ E]; [|exact N|now apply option_no_blank].
        apply app_inj_tail in E as [-> _]. contradiction.
      - rewrite <- app_assoc in E. change (lit " ") with [SP] in E. cbn [app] in E. apply first_same in E as [-> _]; [|exact N|now apply option_no_blank].
        exact (MAX _ v O eq_refl). }
    apply tail_forward; assumption.
  - rewrite <- app_assoc. erewrite option_forward; [reflexivity|exact O|].
    match goal with |- (if ?b then _ else _) = _ => replace b with true end; [exact IH|].
    symmetry. apply Nat.ltb_lt. rewrite (app_length (o ++ lit " ")), (app_length o). cbn [lit length]. lia.
Qed.
Definition class_word (x : str) : bool := match x with [] => false | _ => forallb option_chr x end.
Definition is_option (u : str) : bool :=
  match u with
  | c :: x => (N.eqb c 45 && (class_word x || match x with d :: y => (N.eqb d 45 && class_word y)%bool | [] => false end))%bool
  | [] => false
  end.
Lemma class_word_ok x : class_word x = true <-> x <> [] /\ Forall option_char x.
Proof.
  rewrite option_classes. unfold class_word. destruct x as [|y x].
  - split; [discriminate|intros [H _]; congruence].
  - split; [intros H; split; [discriminate|exact H]|tauto].
Qed.
Lemma is_option_ok u : is_option u = true <-> diff_option u.
Proof.
  split.
  - destruct u as [|c x]; [discriminate|]. cbn [is_option]. intros H. apply andb_prop in H as [H1 H2]. apply N.eqb_eq in H1 as ->.
    apply orb_prop in H2 as [H2|H2].
    + apply class_word_ok in H2 as [A B]. exists x. auto.
    + destruct x as [|d y]; [discriminate|]. apply andb_prop in H2 as [H1 H2]. apply N.eqb_eq in H1 as ->. apply class_word_ok in H2 as [A B]. exists y. auto.
  - intros (x & A & B & [-> | ->]).
    + cbn [lit app Ascii.N_of_ascii is_option]. rewrite (proj2 (class_word_ok x) (conj A B)). reflexivity.
    + cbn [lit app Ascii.N_of_ascii is_option]. rewrite (proj2 (class_word_ok x) (conj A B)), N.eqb_refl. cbn [andb]. apply orb_true_r.
Qed.
Lemma last_blank (s : str) : In SP s -> exists u v, s = u ++ SP :: v /\ ~ In SP v.
Proof.
  induction s as [|x s IH]; [intros []|]. intros I. destruct (in_dec N.eq_dec SP s) as [J|J].
  - destruct (IH J) as (u & v & -> & N). exists (x :: u), v. auto.
  - destruct I as [->|I]; [|contradiction]. exists [], s. auto.
Qed.
Lemma diff_line_exists : forall n t, (length t <= n)%nat -> one_line t -> In SP t ->
  exists os n1 n2, t = concat (map (fun o => o ++ lit " ") os) ++ n1 ++ lit " " ++ n2 /\ Forall diff_option os /\ one_line n1 /\ one_line n2 /\ ~ In SP n2 /\
    (forall o y, diff_option o -> n1 <> o ++ lit " " ++ y).
Proof.
  induction n as [|n IH]; intros t L O I; [destruct t; [destruct I|cbn in L; lia]|].
  destruct (split_first SP t) as [N|(u & v & -> & N)]; [contradiction|].
  destruct (is_option u) eqn:EO; [destruct (in_dec N.eq_dec SP v) as [J|J]|].
  - destruct (IH v) as (os & n1 & n2 & -> & A & B & C & D & E).
    + rewrite app_length in L. cbn in L. lia.
    + intros X. apply O. apply in_or_app. right. right. exact X.
    + exact J.
    + exists (u :: os), n1, n2. split; [cbn [map concat]; rewrite <- !app_assoc; reflexivity|]. split; [constructor; [now apply is_option_ok|exact A]|]. auto.
  - exists [], u, v. split; [reflexivity|]. split; [constructor|].
    split; [intros X; apply O; apply in_or_app; auto|]. split; [intros X; apply O; apply in_or_app; right; right; exact X|]. split; [exact J|].
    intros o y _ ->. apply N. apply in_or_app. right. left. reflexivity.
  - destruct (last_blank _ I) as (n1 & n2 & E & NS). exists [], n1, n2. split; [exact E|]. split; [constructor|].
    rewrite E in O. split; [intros X; apply O; apply in_or_app; auto|]. split; [intros X; apply O; apply in_or_app; right; right; exact X|]. split; [exact NS|].
    intros o y OO ->. rewrite <- app_assoc in E. change (lit " ") with [SP] in E. cbn [app] in E.
    apply first_same in E as [-> _]; [|exact N|now apply option_no_blank]. apply is_option_ok in OO. congruence.
Qed.
Lemma match_diff_line l c : full_match normal_diff_header l = Some c -> diff_line l (captured 1 c) (captured 2 c).
Proof.
  intros H. assert (E : exists n1 n2, diff_line l n1 n2).
  { change (full_match normal_diff_header) with (full_match (T "diff " ~~ star option_re ~~ tail_re)) in H. unfold full_match in H.
    rewrite m_seq in H. unfold T at 1 in H. apply i_text in H as (s & -> & H). rewrite m_seq in H. apply options_inv in H as (t & O & -> & I).
    destruct (diff_line_exists _ t (le_n _) O I) as (os & n1 & n2 & -> & A & B & C & D & E). exists n1, n2.
    rewrite <- !app_assoc. apply dl_intro; assumption. }
  destruct E as (n1 & n2 & D). destruct (diff_line_match _ _ _ D) as (c' & M & <- & <-). rewrite H in M. injection M as <-. exact D.
Qed.
Lemma no_diff_line l : full_match normal_diff_header l = None -> ~ diff_start l.
Proof. intros H (n1 & n2 & D). apply diff_line_match in D as (c & M & _). congruence. Qed.
Lemma match_index_line l c : full_match cvs_normal_header l = Some c -> index_line l (captured 1 c).
Proof. intros H. apply line_inv in H as (t & O & -> & ->). now apply il_intro. Qed.
Lemma no_index_line l : full_match cvs_normal_header l = None -> ~ index_start l.
Proof. intros H (n & D). destruct D as [n' O]. destruct (line_forward "Index: " n' O) as (c & M & _). pose proof (eq_trans (eq_sym H) M) as X. discriminate X. Qed.

(** * Searching for headers *)
Definition head_found (starts : str -> Prop) (heading : list str -> dmodel -> Prop) (ls : list str) (m : dmodel) (rest : list str) : Prop :=
  exists skip hd, ls = skip ++ hd ++ rest /\ Forall (fun l => ~ starts l) skip /\ heading hd m /\ contents m [].
Definition head_missing (starts : str -> Prop) (heading : list str -> dmodel -> Prop) (ls : list str) : Prop :=
  Forall (fun l => ~ starts l) ls \/
  exists skip l rest, ls = skip ++ l :: rest /\ Forall (fun l => ~ starts l) skip /\ starts l /\ (forall hd tl m, l :: rest = hd ++ tl -> ~ heading hd m).
Definition nstarts (cvs : bool) : str -> Prop := if cvs then index_start else diff_start.
Definition nheading (cvs : bool) : list str -> dmodel -> Prop := if cvs then index_heading else diff_heading.
Lemma normal_search_ok cvs ls :
  match normal_diff_header_search cvs ls with
  | (Some m, rest) => head_found (nstarts cvs) (nheading cvs) ls m rest
  | (None, _) => head_missing (nstarts cvs) (nheading cvs) ls
  end.
Proof.
  induction ls as [|l ls IH]; cbn [normal_diff_header_search]; [left; constructor|].
  destruct (full_match (if cvs then cvs_normal_header else normal_diff_header) l) as [c|] eqn:E.
  - exists [], [l]. split; [reflexivity|]. split; [constructor|]. destruct cvs; cbn [nheading].
    + apply match_index_line in E. destruct (set_files_named (captured 1 c) (captured 1 c) _ eq_refl) as [A B].
      split; [eapply ih_intro; eauto|exact B].
    + apply match_diff_line in E. destruct (set_files_named (unescape_path (captured 1 c)) (unescape_path (captured 2 c)) _ eq_refl) as [A B].
      split; [eapply dh_intro; eauto|exact B].
  - assert (NS : ~ nstarts cvs l) by (destruct cvs; [now apply no_index_line|now apply no_diff_line]).
    destruct (normal_diff_header_search cvs ls) as [[m|] rest].
    + destruct IH as (skip & hd & -> & F & H & C). exists (l :: skip), hd. split; [reflexivity|]. split; [constructor; assumption|auto].
    + destruct IH as [F|(skip & l' & r & -> & F & S & K)]; [left; constructor; assumption|].
      right. exists (l :: skip), l', r. split; [reflexivity|]. split; [constructor; assumption|auto].
Qed.
Lemma nstarts_match (cvs : bool) l : has_match (if cvs then cvs_normal_header else normal_diff_header) l = true <-> nstarts cvs l.
Proof.
  unfold has_match. destruct (full_match _ l) as [c|] eqn:E; split; auto; try discriminate.
  - intros _. destruct cvs; [exists (captured 1 c); now apply match_index_line|exists (captured 1 c), (captured 2 c); now apply match_diff_line].
  - intros S. exfalso. destruct cvs; [exact (no_index_line l E S)|exact (no_diff_line l E S)].
Qed.

(** * Headers of context diffs *)
Lemma context_header_match mark l p t : context_header_line (lit mark) l p t ->
  exists c, full_match (diff_context_header mark) l = Some c /\ captured 1 c = p /\ captured 3 c = t /\ captured 5 c = [].
Proof.
  intros H. unfold full_match, diff_context_header. destruct H as [p Np Tp|p t Np Tp Nt Tt].
  - exists [(1%nat, p)]. split; [|auto]. rewrite m_seq. unfold T. rewrite s_text, m_seq, m_group.
    unfold not_chr. apply s_plus_take; auto using forallb_not.
    + rewrite group_text, m_seq. unfold opt, nl. rewrite m_alt, m_group, m_seq. unfold tab. rewrite s_is_other by discriminate.
      rewrite m_eps, s_is. reflexivity.
    + intros y w2 rest2 E F. destruct w2; [|destruct w2; discriminate]. cbn in E. injection E as <- <-.
      rewrite m_seq. unfold opt, nl. rewrite m_alt, m_group, m_seq. reflexivity.
  - exists [(2%nat, TAB :: t); (3%nat, t); (1%nat, p)]. split; [|auto]. rewrite m_seq. unfold T. rewrite s_text, m_seq, m_group.
    apply s_plus_longest; auto using forallb_not. rewrite group_text.
    rewrite m_seq. unfold opt. rewrite m_alt, m_group, m_seq. unfold tab at 1. rewrite s_is, m_group. unfold not_chr.
    erewrite s_plus_take; [reflexivity|auto|auto using forallb_not| |].
    + rewrite group_text. unfold nl. rewrite s_is. change (TAB :: t ++ [NL]) with ((TAB :: t) ++ [NL]). rewrite group_text. reflexivity.
    + intros y w2 rest2 E F. destruct w2; [|destruct w2; discriminate]. cbn in E. injection E as <- <-. reflexivity.
Qed.
Lemma match_context_header mark l c : full_match (diff_context_header mark) l = Some c ->
  context_header_line (lit mark) l (captured 1 c) (captured 3 c) /\ captured 5 c = [].
Proof.
  intros H. assert (E : exists p t, context_header_line (lit mark) l p t).
  { unfold full_match, diff_context_header in H. inv_match H. rewrite m_seq, m_group in H.
    apply i_plus in H as (w1 & rest & -> & N1 & F1 & H). apply not_chr_any in F1. rewrite m_seq in H.
    unfold opt in H at 1. apply i_alt in H as [H|[_ H]].
    - rewrite m_group in H. inv_match H. rewrite m_group in H. unfold not_chr in H.
      apply i_plus in H as (w2 & rest2 & -> & N2 & F2 & H). apply not_chr_any in F2. inv_match H. apply end_inv in H as [-> _].
      exists w1, w2. now apply xl_stamp.
    - rewrite m_eps in H. inv_match H. apply end_inv in H as [-> _]. exists w1, []. now apply xl_name. }
  destruct E as (p & t & HL). destruct (context_header_match _ _ _ _ HL) as (c' & M & C1 & C2 & C4).
  rewrite H in M. injection M as <-. subst. auto.
Qed.
Lemma cvs_old_match l p r : cvs_old_line l p r -> exists c, full_match cvs_context_header1 l = Some c /\ captured 1 c = p /\ captured 3 c = r /\ captured 5 c = [].
Proof.
  intros H. unfold full_match, cvs_context_header1. destruct H as [p t r Np Tp Nt Tt Or].
  exists [(3%nat, r); (2%nat, t); (1%nat, p)]. split; [|auto]. rewrite m_seq. unfold T. rewrite s_text, m_seq, m_group.
  apply s_plus_longest; auto using forallb_not. rewrite group_text, m_seq. unfold tab at 1. rewrite s_is, m_seq, m_group.
  apply s_plus_longest; auto using forallb_not. rewrite group_text, m_seq. unfold tab. rewrite s_is. now apply any_rest.
Qed.
Lemma match_cvs_old l c : full_match cvs_context_header1 l = Some c -> cvs_old_line l (captured 1 c) (captured 3 c) /\ captured 5 c = [].
Proof.
  intros H. assert (E : exists p r, cvs_old_line l p r).
  { unfold full_match, cvs_context_header1 in H. inv_match H. rewrite m_seq, m_group in H.
    apply i_plus in H as (w1 & rest & -> & N1 & F1 & H). apply not_chr_any in F1. inv_match H. rewrite m_seq, m_group in H. unfold not_chr in H.
    apply i_plus in H as (w2 & rest2 & -> & N2 & F2 & H). apply not_chr_any in F2. inv_match H. apply any_end_inv in H as (u & U & ->).
    exists w1, u. now apply vl_old. }
  destruct E as (p & r & HL). destruct (cvs_old_match _ _ _ HL) as (c' & M & C1 & C2 & C4). rewrite H in M. injection M as <-. subst. auto.
Qed.
Lemma cvs_new_match l p r : cvs_new_line l p r -> exists c, full_match cvs_context_header2 l = Some c /\ captured 1 c = p /\ captured 3 c = r /\ captured 5 c = [].
Proof.
  intros H. unfold full_match, cvs_context_header2. destruct H as [p t Np Tp Nt Tt|p t r Np Tp Nt Tt Or].
  - exists [(3%nat, []); (2%nat, t); (1%nat, p)]. split; [|auto]. rewrite m_seq. unfold T. rewrite s_text, m_seq, m_group.
    apply s_plus_longest; auto using forallb_not. rewrite group_text, m_seq. unfold tab at 1. rewrite s_is, m_seq, m_group. unfold not_chr.
    apply s_plus_take; [auto|auto using forallb_not| |].
    + rewrite group_text, m_seq, m_group, m_alt, m_eps. unfold nl. rewrite s_is. rewrite Nat.sub_diag. reflexivity.
    + intros y w2 rest2 E F. destruct w2; [|destruct w2; discriminate]. cbn in E. injection E as <- <-. reflexivity.
  - exists [(3%nat, TAB :: r); (4%nat, r); (2%nat, t); (1%nat, p)]. split; [|auto]. rewrite m_seq. unfold T. rewrite s_text, m_seq, m_group.
    apply s_plus_longest; auto using forallb_not. rewrite group_text, m_seq. unfold tab at 1. rewrite s_is, m_seq, m_group. unfold not_chr.
    apply s_plus_longest; auto using forallb_not. rewrite group_text, m_seq, m_group, m_alt, m_eps.
    unfold nl at 1. rewrite s_is_other by discriminate. rewrite m_seq. unfold tab. rewrite s_is, m_group. unfold star, any.
    apply m_star_longest; [now apply not_nl_any|reflexivity|]. rewrite group_text. unfold nl. rewrite s_is.
    change (TAB :: r ++ [NL]) with ((TAB :: r) ++ [NL]). rewrite group_text. reflexivity.
Qed.
Lemma match_cvs_new l c : full_match cvs_context_header2 l = Some c -> cvs_new_line l (captured 1 c) (captured 3 c) /\ captured 5 c = [].
Proof.
  intros H. assert (E : exists p r, cvs_new_line l p r).
  { unfold full_match, cvs_context_header2 in H. inv_match H. rewrite m_seq, m_group in H.
    apply i_plus in H as (w1 & rest & -> & N1 & F1 & H). apply not_chr_any in F1. inv_match H. rewrite m_seq, m_group in H. unfold not_chr in H.
    apply i_plus in H as (w2 & rest2 & -> & N2 & F2 & H). apply not_chr_any in F2. rewrite m_seq, m_group in H. apply i_alt in H as [H|[_ H]].
    - rewrite m_eps in H. inv_match H. apply end_inv in H as [-> _]. exists w1, []. now apply vl_bare.
    - inv_match H. inv_match H. inv_match H. apply end_inv in H as [-> _]. match goal with F : forallb _ ?x = true |- _ => rename F into F3 end. apply not_nl_any in F3.
      eexists w1, _. now apply vl_new. }
  destruct E as (p & r & HL). destruct (cvs_new_match _ _ _ HL) as (c' & M & C1 & C2 & C4). rewrite H in M. injection M as <-. subst. auto.
Qed.
Definition xstarts (cvs : bool) : str -> Prop := if cvs then cvs_start else context_start.
Definition xheading (cvs : bool) : list str -> dmodel -> Prop := if cvs then cvs_heading else context_heading.
Definition xh1 (cvs : bool) : re := if cvs then cvs_context_header1 else diff_context_header "*** ".
Definition xh2 (cvs : bool) : re := if cvs then cvs_context_header2 else diff_context_header "--- ".
Lemma xstarts_match cvs l : has_match (xh1 cvs) l = true <-> xstarts cvs l.
Proof.
  unfold has_match. destruct (full_match (xh1 cvs) l) as [c|] eqn:E; split; auto; try discriminate.
  - intros _. destruct cvs; [apply match_cvs_old in E as [E _]|apply match_context_header in E as [E _]]; do 2 eexists; exact E.
  - intros S. exfalso. destruct cvs; destruct S as (p & t & S); [apply cvs_old_match in S|apply context_header_match in S]; destruct S as (c & M & _); cbn [xh1] in E;
      pose proof (eq_trans (eq_sym E) M) as X; discriminate X.
Qed.
Lemma context_search_ok cvs ls : match context_diff_header (xh1 cvs) (xh2 cvs) ls with
  | Ok (Some m, rest) => head_found (xstarts cvs) (xheading cvs) ls m rest
  | Ok (None, _) => head_missing (xstarts cvs) (xheading cvs) ls
  | _ => True
  end.
Proof.
  induction ls as [|l ls IH]; cbn [context_diff_header]; [left; constructor|].
  destruct (full_match (xh1 cvs) l) as [c1|] eqn:E1.
  - destruct ls as [|l2 ls2]; [exact I|]. destruct (full_match (xh2 cvs) l2) as [c2|] eqn:E2.
    + exists [], [l; l2]. split; [reflexivity|]. split; [constructor|].
      destruct (new_model_named (unescape_path (captured 1 c1)) (unescape_path (captured 1 c2)) _ eq_refl) as (A1 & A2 & A3 & A4 & A5 & A6 & A7 & A8 & A9).
      assert (C5 : captured 5 c1 = [] /\ captured 5 c2 = []).
      { destruct cvs; cbn [xh1 xh2] in *; [apply match_cvs_old in E1 as [_ E1]; apply match_cvs_new in E2 as [_ E2]|
          apply match_context_header in E1 as [_ E1]; apply match_context_header in E2 as [_ E2]]; auto. }
      destruct C5 as [-> ->]. split.
      * assert (NM : forall t1 t2, named (set_destination_revision [] (set_destination_timestamp t2 (set_source_revision [] (set_source_timestamp t1
            (new_model (unescape_path (captured 1 c1)) (unescape_path (captured 1 c2))))))) (unescape_path (captured 1 c1)) (unescape_path (captured 1 c2)) t1 t2).
        { intros t1 t2. split; auto. }
        destruct cvs; cbn [xh1 xh2 xheading] in *.
        -- apply match_cvs_old in E1 as [E1 _]. apply match_cvs_new in E2 as [E2 _]. eapply vh_intro; eauto.
        -- apply match_context_header in E1 as [E1 _]. apply match_context_header in E2 as [E2 _]. eapply xh_intro; eauto.
      * destruct A5 as [[B1 B2 B3 B4 B6 B7] B5]. split; [split|]; auto.
    + right. exists [], l, (l2 :: ls2). split; [reflexivity|]. split; [constructor|].
      split; [apply xstarts_match; unfold has_match; now rewrite E1|].
      intros hd tl m E H. destruct cvs; cbn [xheading xh2] in *; destruct H as [a p1 t1 b p2 t2 m Ha Hb _]; cbn in E; injection E as -> -> _;
        [apply cvs_new_match in Hb|apply context_header_match in Hb]; destruct Hb as (c & M & _); pose proof (eq_trans (eq_sym E2) M) as X; discriminate X.
  - assert (NS : ~ xstarts cvs l) by (intros S; apply xstarts_match in S; unfold has_match in S; rewrite E1 in S; discriminate).
    destruct (context_diff_header (xh1 cvs) (xh2 cvs) ls) as [[[m|] rest]| |]; auto.
    + destruct IH as (skip & hd & -> & F & H & C). exists (l :: skip), hd. split; [reflexivity|]. split; [constructor; assumption|auto].
    + destruct IH as [F|(skip & l' & r & -> & F & S & K)]; [left; constructor; assumption|].
      right. exists (l :: skip), l', r. split; [reflexivity|]. split; [constructor; assumption|auto].
Qed.
