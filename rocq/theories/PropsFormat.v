(** C65: the format of a diff. *)
From Coq Require Import String.
From Verif Require Import Base QtStr Regex Patterns Diff Parser SpecRegex SpecFormat PRegexLang.

Lemma lang_chr p w : lang (RChr p) w <-> exists c, w = [c] /\ p c = true.
Proof. split; [intros H; inversion H; subst; eauto|intros (c & -> & H); now constructor]. Qed.
Lemma lang_seq a b w : lang (RSeq a b) w <-> exists u v, w = u ++ v /\ lang a u /\ lang b v.
Proof. split; [intros H; inversion H; subst; eauto|intros (u & v & -> & H1 & H2); now constructor]. Qed.
Lemma lang_eps w : lang REps w <-> w = [].
Proof. split; [intros H; now inversion H|intros ->; constructor]. Qed.
Lemma lang_alt a b w : lang (RAlt a b) w <-> lang a w \/ lang b w.
Proof. split; [intros H; inversion H; subst; auto|intros [H|H]; [now apply l_alt1|now apply l_alt2]]. Qed.
Lemma lang_star g p w : lang (RStar g (RChr p)) w <-> Forall (fun c => p c = true) w.
Proof.
  split.
  - intros H. remember (RStar g (RChr p)) as r eqn:E. induction H; try discriminate; [constructor|]. injection E as -> ->. apply lang_chr in H as (c & -> & H). constructor; auto.
  - induction 1 as [|c w H F IH]; [constructor|]. apply (l_star g (RChr p) [c] w); [now constructor|exact IH].
Qed.
Lemma lang_plus p w : lang (plus (RChr p)) w <-> w <> [] /\ Forall (fun c => p c = true) w.
Proof.
  unfold plus. rewrite lang_seq. split.
  - intros (u & v & -> & H1 & H2). apply lang_chr in H1 as (c & -> & H1). apply lang_star in H2. split; [discriminate|]. now constructor.
  - intros [N F]. destruct F as [|c w H F]; [congruence|]. exists [c], w. split; [reflexivity|]. split; [now constructor|now apply lang_star].
Qed.
Lemma lang_text s w : lang (text s) w <-> w = s.
Proof.
  revert w. induction s as [|c s IH]; intros w; cbn [text]; [apply lang_eps|].
  rewrite lang_seq. split.
  - intros (u & v & -> & H1 & H2). apply lang_chr in H1 as (x & -> & H1). apply N.eqb_eq in H1 as <-. apply IH in H2 as ->. reflexivity.
  - intros ->. exists [c], s. split; [reflexivity|]. split; [constructor; apply N.eqb_refl|now apply IH].
Qed.
Lemma lang_digits w : lang digits w <-> some_digits w.
Proof. unfold digits, digit, some_digits. apply lang_plus. Qed.
Lemma lang_commas w : lang (star digit_or_comma) w <-> Forall (fun c => is_digit c = true \/ c = 44%N) w.
Proof.
  unfold star, digit_or_comma. rewrite lang_star. split; intros F; (eapply Forall_impl; [|exact F]); cbn; intros c H.
  - apply orb_true_iff in H as [H|H]; [auto|right; now apply N.eqb_eq].
  - apply orb_true_iff. destruct H as [H| ->]; auto.
Qed.
Lemma lang_command w : lang (one_of (lit "acd")) w <-> exists c, w = [c] /\ command c.
Proof.
  unfold one_of, command. rewrite lang_chr. split; intros (c & -> & H); exists c; (split; [reflexivity|]).
  - apply existsb_exists in H as (x & I & H). apply N.eqb_eq in H as ->. exact I.
  - apply existsb_exists. exists c. split; [exact H|apply N.eqb_refl].
Qed.
Lemma lang_range w : lang (digits ~~ maybe_comma_digits) w <-> range w.
Proof.
  rewrite lang_seq. unfold maybe_comma_digits, range. split.
  - intros (u & v & -> & H1 & H2). apply lang_digits in H1. apply lang_alt in H2 as [H2|H2].
    + apply lang_eps in H2 as ->. left. now rewrite app_nil_r.
    + apply lang_seq in H2 as (x & y & -> & H2 & H3). apply lang_text in H2 as ->. apply lang_digits in H3. right. eauto.
  - intros [H|(a & b & -> & H1 & H2)].
    + exists w, []. split; [now rewrite app_nil_r|]. split; [now apply lang_digits|apply lang_alt; left; constructor].
    + exists a, (lit "," ++ b). split; [reflexivity|]. split; [now apply lang_digits|]. apply lang_alt. right. apply lang_seq. eexists _, _. split; [reflexivity|]. split; [now apply lang_text|now apply lang_digits].
Qed.
Lemma lang_numbers w : lang (digits ~~ star digit_or_comma) w <-> numbers w.
Proof.
  rewrite lang_seq. unfold numbers. split; intros (a & b & -> & H1 & H2); exists a, b; (split; [reflexivity|]); (split; [now apply lang_digits|now apply lang_commas]).
Qed.
Lemma lang_seq_intro a b u v : lang a u -> lang b v -> lang (RSeq a b) (u ++ v).
Proof. apply l_seq. Qed.
Lemma sees_text s l : at_start (T s) l = true <-> starts s l.
Proof.
  rewrite at_start_lang. unfold starts. split; [intros (w & r & -> & H); apply lang_text in H as ->; eauto|intros (r & ->)]. exists (lit s), r. split; [reflexivity|now apply lang_text].
Qed.
Lemma sees_named s l : at_start (T s ~~ plus (not_chr TAB) ~~ tab) l = true <-> named (lit s) l.
Proof.
  rewrite at_start_lang. unfold named. split.
  - intros (w & r & -> & H). apply lang_seq in H as (u & v & -> & H1 & H). apply lang_text in H1 as ->. apply lang_seq in H as (n & v2 & -> & H2 & H). apply lang_plus in H2 as [N F]. apply lang_chr in H as (c & -> & H).
    apply N.eqb_eq in H as <-. exists n, r. split; [now rewrite <- !app_assoc|]. split; [exact N|].
    intros I. rewrite Forall_forall in F. specialize (F _ I). rewrite N.eqb_refl in F. discriminate.
  - intros (n & r & -> & N & NI). exists (lit s ++ n ++ [TAB]), r. split; [now rewrite <- !app_assoc|]. apply lang_seq. eexists _, _. split; [reflexivity|]. split; [now apply lang_text|].
    apply lang_seq. eexists _, _. split; [reflexivity|]. split; [|constructor; apply N.eqb_refl]. apply lang_plus. split; [exact N|]. apply Forall_forall. intros c I. apply negb_true_iff, N.eqb_neq. intros ->. auto.
Qed.
Lemma sees_normal l : at_start normal_re l = true <-> exists a c b rest, l = a ++ [c] ++ b ++ rest /\ numbers a /\ command c /\ some_digits b.
Proof.
  rewrite at_start_lang. unfold normal_re. split.
  - intros (w & r & -> & H). apply lang_seq in H as (u1 & v & -> & H1 & H). apply lang_seq in H as (u2 & v1 & -> & H2 & H). apply lang_seq in H as (u3 & v2 & -> & H3 & H). apply lang_seq in H as (u4 & u5 & -> & H4 & H5).
    apply lang_command in H3 as (c & -> & H3). exists (u1 ++ u2), c, u4, (u5 ++ r). split; [now rewrite <- !app_assoc|]. split; [exists u1, u2; split; [reflexivity|split; [now apply lang_digits|now apply lang_commas]]|split; [exact H3|now apply lang_digits]].
  - intros (a & c & b & r & -> & (a1 & a2 & -> & H1 & H2) & H3 & H4). exists (a1 ++ a2 ++ [c] ++ b ++ []), r. split; [now rewrite app_nil_r, <- !app_assoc|].
    repeat apply lang_seq_intro; [now apply lang_digits|now apply lang_commas|apply lang_command; eauto|now apply lang_digits|apply lang_commas; constructor].
Qed.
Lemma sees_ed l : at_start ed_re l = true <-> exists a c rest, l = a ++ [c] ++ rest /\ numbers a /\ command c.
Proof.
  rewrite at_start_lang. unfold ed_re. split.
  - intros (w & r & -> & H). apply lang_seq in H as (u1 & v & -> & H1 & H). apply lang_seq in H as (u2 & u3 & -> & H2 & H3).
    apply lang_command in H3 as (c & -> & H3). exists (u1 ++ u2), c, r. split; [now rewrite <- !app_assoc|]. split; [exists u1, u2; split; [reflexivity|split; [now apply lang_digits|now apply lang_commas]]|exact H3].
  - intros (a & c & r & -> & (a1 & a2 & -> & H1 & H2) & H3). exists (a1 ++ a2 ++ [c]), r. split; [now rewrite <- !app_assoc|].
    repeat apply lang_seq_intro; [now apply lang_digits|now apply lang_commas|apply lang_command; eauto].
Qed.
Lemma sees_rcs l : at_start rcs_re l = true <-> exists c a b rest, l = [c] ++ a ++ lit " " ++ b ++ rest /\ command c /\ some_digits a /\ some_digits b.
Proof.
  rewrite at_start_lang. unfold rcs_re. split.
  - intros (w & r & -> & H). apply lang_seq in H as (u1 & v & -> & H1 & H). apply lang_seq in H as (u2 & v1 & -> & H2 & H). apply lang_seq in H as (u3 & u4 & -> & H3 & H4).
    apply lang_command in H1 as (c & -> & H1). apply lang_chr in H3 as (q & -> & H3). apply N.eqb_eq in H3 as <-. exists c, u2, u4, r. split; [now rewrite <- !app_assoc|]. split; [exact H1|split; now apply lang_digits].
  - intros (c & a & b & r & -> & H1 & H2 & H3). exists ([c] ++ a ++ lit " " ++ b), r. split; [now rewrite <- !app_assoc|].
    repeat apply lang_seq_intro; [apply lang_command; eauto|now apply lang_digits|constructor; reflexivity|now apply lang_digits].
Qed.
Lemma sees_perforce l : at_start perforce_normal_re l = true <-> exists a c b rest, l = a ++ [c] ++ b ++ rest /\ range a /\ command c /\ some_digits b.
Proof.
  rewrite at_start_lang. unfold perforce_normal_re. split.
  - intros (w & r & -> & H). apply lang_seq in H as (u & v & -> & H1 & H). apply lang_seq in H as (v1 & v2 & -> & H2 & H). assert (R : range (u ++ v1)) by (apply lang_range, lang_seq; eauto).
    apply lang_seq in H as (u3 & v3 & -> & H3 & H). apply lang_seq in H as (u4 & u5 & -> & H4 & H5). apply lang_command in H3 as (c & -> & H3). exists (u ++ v1), c, u4, (u5 ++ r). split; [now rewrite <- !app_assoc|]. split; [exact R|split; [exact H3|now apply lang_digits]].
  - intros (a & c & b & r & -> & R & H3 & H4). apply lang_range, lang_seq in R as (a1 & a2 & -> & H1 & H2). exists (a1 ++ a2 ++ [c] ++ b ++ []), r. split; [now rewrite app_nil_r, <- !app_assoc|].
    repeat apply lang_seq_intro; [exact H1|exact H2|apply lang_command; eauto|now apply lang_digits|apply lang_alt; left; constructor].
Qed.
(** One line. *)
Lemma numbers_first a rest : numbers a -> exists c x, a ++ rest = c :: x /\ is_digit c = true.
Proof. intros (a1 & a2 & -> & (N & F) & _). destruct F as [|c w H F]; [congruence|]. exists c, (w ++ a2 ++ rest). split; [cbn; now rewrite <- app_assoc|exact H]. Qed.
Lemma range_first a rest : range a -> exists c x, a ++ rest = c :: x /\ is_digit c = true.
Proof. intros [(N & F)|(a1 & a2 & -> & (N & F) & _)]; (destruct F as [|c w H F]; [congruence|]); [exists c, (w ++ rest)|exists c, (w ++ (lit "," ++ a2) ++ rest)]; (split; [cbn; now rewrite <- ?app_assoc|exact H]). Qed.
(** The first character keeps the forms apart. *)
Definition kind (f : format) (c : chr) : Prop :=
  match f with
  | Normal | Ed => is_digit c = true
  | Unified => c = 45%N \/ c = 64%N | Context => c = 42%N
  | RCS => command c | UnknownFormat => False end.
Lemma looks_kind g f l : looks g f l -> exists c x, l = c :: x /\ kind f c.
Proof.
  destruct f; cbn [looks kind].
  - tauto.
  - destruct g; [intros (n & r & -> & _)|intros (r & ->)|intros (r & ->)]; eexists _, _; (split; [reflexivity|reflexivity]).
  - intros (_ & a & c & r & -> & N & _). now apply numbers_first.
  - destruct g; intros (a & c & b & r & -> & N & _); first [now apply numbers_first|now apply range_first].
  - intros (c & a & b & r & -> & H & _). eexists _, _. split; [reflexivity|exact H].
  - destruct g; [intros (n & r & -> & _)|intros (r & ->)|intros (r & ->)]; eexists _, _; (split; [reflexivity|cbn; auto]).
Qed.
Lemma kinds_apart f f' c : kind f c -> kind f' c -> f = f' \/ (f = Ed /\ f' = Normal) \/ (f = Normal /\ f' = Ed).
Proof.
  assert (D : is_digit 45%N = false /\ is_digit 64%N = false /\ is_digit 42%N = false) by (split; [reflexivity|split; reflexivity]). destruct D as (D1 & D2 & D3).
  assert (C : forall x, command x -> is_digit x = false /\ x <> 45%N /\ x <> 64%N /\ x <> 42%N).
  { intros x [<-|[<-|[<-|[]]]]; (split; [reflexivity|split; [discriminate|split; discriminate]]). }
  destruct f, f'; cbn [kind]; intros H1 H2; try tauto; auto; exfalso;
  repeat match goal with H : _ \/ _ |- _ => destruct H end; subst; try discriminate; try congruence;
  repeat match goal with H : command _ |- _ => destruct (C _ H) as (? & ? & ? & ?); clear H end; congruence.
Qed.
Lemma tells_one g f f' l : tells g f l -> tells g f' l -> f = f'.
Proof.
  intros [L1 N1] [L2 N2]. destruct (looks_kind _ _ _ L1) as (c & x & E & K1). destruct (looks_kind _ _ _ L2) as (c' & x' & E' & K2). rewrite E in E'. injection E' as <- <-.
  destruct (kinds_apart _ _ _ K1 K2) as [Q|[[-> ->]|[-> ->]]]; [exact Q|destruct (N1 eq_refl L2)|destruct (N2 eq_refl L1)].
Qed.
Lemma line_tells g l f : line_format g l = Some f <-> tells g f l.
Proof.
  assert (NO : forall a P, (at_start a l = true <-> P) -> at_start a l = false -> ~ P) by (intros a P H E Q; rewrite (proj2 H Q) in E; discriminate).
  assert (X : match line_format g l with Some f => tells g f l | None => forall f, ~ tells g f l end).
  { unfold line_format. destruct g; cbn iota.
    - destruct (at_start normal_re l) eqn:E1; [split; [now apply sees_normal|discriminate]|]. destruct (at_start cvs_unified_re l) eqn:E2; [split; [now apply (sees_named "--- ")|discriminate]|].
      destruct (at_start cvs_context_re l) eqn:E3; [split; [now apply (sees_named "*** ")|discriminate]|]. destruct (at_start rcs_re l) eqn:E4; [split; [now apply sees_rcs|discriminate]|].
      apply (NO _ _ (sees_normal l)) in E1. apply (NO _ _ (sees_named "--- " l)) in E2. apply (NO _ _ (sees_named "*** " l)) in E3. apply (NO _ _ (sees_rcs l)) in E4.
      destruct (at_start ed_re l) eqn:E5; [apply sees_ed in E5; split; [split; [discriminate|exact E5]|intros _; exact E1]|]. apply (NO _ _ (sees_ed l)) in E5.
      intros [| | | | |] [L _]; cbn [looks] in L; tauto.
    - destruct (at_start normal_re l) eqn:E1; [split; [now apply sees_normal|discriminate]|]. destruct (at_start diff_unified_re l) eqn:E2; [split; [now apply (sees_text "--- ")|discriminate]|].
      destruct (at_start diff_context_re l) eqn:E3; [split; [now apply (sees_text "*** ")|discriminate]|]. destruct (at_start rcs_re l) eqn:E4; [split; [now apply sees_rcs|discriminate]|].
      apply (NO _ _ (sees_normal l)) in E1. apply (NO _ _ (sees_text "--- " l)) in E2. apply (NO _ _ (sees_text "*** " l)) in E3. apply (NO _ _ (sees_rcs l)) in E4.
      destruct (at_start ed_re l) eqn:E5; [apply sees_ed in E5; split; [split; [discriminate|exact E5]|intros _; exact E1]|]. apply (NO _ _ (sees_ed l)) in E5.
      intros [| | | | |] [L _]; cbn [looks] in L; tauto.
    - destruct (at_start perforce_unified_re l) eqn:E2; [split; [now apply (sees_text "@@")|discriminate]|].
      destruct (at_start perforce_context_re l) eqn:E3; [split; [now apply (sees_text "***************")|discriminate]|]. destruct (at_start perforce_normal_re l) eqn:E1; [split; [now apply sees_perforce|discriminate]|].
      destruct (at_start perforce_rcs_re l) eqn:E4; [split; [now apply sees_rcs|discriminate]|].
      apply (NO _ _ (sees_perforce l)) in E1. apply (NO _ _ (sees_text "@@" l)) in E2. apply (NO _ _ (sees_text "***************" l)) in E3. apply (NO _ _ (sees_rcs l)) in E4.
      intros [| | | | |] [L _]; cbn [looks] in L; tauto. }
  destruct (line_format g l) as [f'|]; split; intros H.
  - injection H as <-. exact X.
  - f_equal. eapply tells_one; eassumption.
  - discriminate.
  - destruct (X _ H).
Qed.
(** C65. The format of a parsed text is told by the first line (after the markers of missing newlines have been taken out)
    that tells one; there is none exactly if no line does. In the formats that are not read there are no models. *)
Theorem C65_format_is_told_by_the_first_line :
  forall sort lines o, parse sort lines = Ok o ->
  (forall f, po_format o = f /\ f <> UnknownFormat <->
     exists before l after, po_lines o = before ++ l :: after /\ tells (po_generator o) f l /\ forall l' f', In l' before -> ~ tells (po_generator o) f' l') /\
  (po_format o = UnknownFormat <-> forall l f, In l (po_lines o) -> ~ tells (po_generator o) f l) /\
  (In (po_format o) [Ed; RCS; UnknownFormat] -> po_models o = None /\ po_malformed o = false).
Proof.
  intros sort lines o H. unfold parse in H. destruct (clean_up_crap lines) as [[ls n]| |]; cbn [bind] in H; try discriminate. set (g := determine_generator lines) in *.
  destruct (base_parse sort g ls) as [[ms bad]| |] eqn:EB; cbn [bind] in H; try discriminate. injection H as <-. cbn [po_format po_lines po_generator po_models po_malformed].
  assert (D : (determine_format g ls = UnknownFormat /\ forall l f, In l ls -> ~ tells g f l) \/
    exists before l after, ls = before ++ l :: after /\ tells g (determine_format g ls) l /\ forall l' f', In l' before -> ~ tells g f' l').
  { clear. induction ls as [|l ls IH]; cbn [determine_format]; [left; split; [reflexivity|intros ? ? []]|]. destruct (line_format g l) as [f|] eqn:E.
    - right. exists [], l, ls. split; [reflexivity|]. split; [now apply line_tells|intros ? ? []].
    - assert (N : forall f, ~ tells g f l) by (intros f Q; apply line_tells in Q; congruence). destruct IH as [[-> A]|(b & x & a & -> & T & B)].
      + left. split; [reflexivity|]. intros l' f [<-|I]; auto.
      + right. exists (l :: b), x, a. split; [reflexivity|]. split; [exact T|]. intros l' f [<-|I]; auto. }
  assert (U : ~ exists l, tells g UnknownFormat l) by (intros (l & [[] _])).
  assert (ONE : forall b l a f b' l' a' f', ls = b ++ l :: a -> ls = b' ++ l' :: a' -> tells g f l -> tells g f' l' -> (forall x y, In x b -> ~ tells g y x) -> (forall x y, In x b' -> ~ tells g y x) -> f = f').
  { clear. intros b l a f b' l' a' f' -> E T T' B B'. revert b' E B'. induction b as [|x b IH]; intros [|x' b'] E B'; cbn in E; injection E as E1 E2; subst.
    - eapply tells_one; eassumption.
    - destruct (B' x' f (or_introl eq_refl) T).
    - destruct (B l' f' (or_introl eq_refl) T').
    - apply (IH ltac:(intros; apply B; now right) b' E2). intros; apply B'; now right. }
  split; [|split].
  - intros f. split.
    + intros [<- NU]. destruct D as [[E _]|D]; [congruence|exact D].
    + intros (b & l & a & E & T & B). destruct D as [[_ N]|(b' & l' & a' & E' & T' & B')]; [destruct (N l f); [rewrite E; apply in_elt|exact T]|].
      split; [exact (ONE _ _ _ _ _ _ _ _ E' E T' T B' B)|]. intros ->. apply U. eauto.
  - split.
    + intros E. destruct D as [[_ N]|(b & l & a & _ & T & _)]; [exact N|]. rewrite E in T. destruct U. eauto.
    + intros N. destruct D as [[E _]|(b & l & a & E & T & _)]; [exact E|]. destruct (N l (determine_format g ls)); [|exact T]. rewrite E. apply in_elt.
  - intros I. unfold base_parse in EB. destruct (determine_format g ls); cbn in I; try (destruct I as [I|[I|[I|[]]]]; discriminate I); injection EB as <- <-; auto.
Qed.
Print Assumptions C65_format_is_told_by_the_first_line.
(** A comment, then an ed command; a normal command would come first. *)
Example C65_example :
  (do o <- parse (fun l => l) [lit "a script"; lit "5,7d"; lit "3c4"]; Ok (po_format o, po_models o)) = Ok (Ed, None) /\
  tells DiffDiff Ed (lit "5,7d") /\ tells DiffDiff Normal (lit "3c4") /\ looks DiffDiff Ed (lit "3c4").
Proof.
  assert (D : forall w, w <> [] -> forallb is_digit w = true -> some_digits w) by (intros w N F; split; [exact N|apply Forall_forall; now apply forallb_forall]).
  split; [vm_compute; reflexivity|]. split; [apply line_tells; vm_compute; reflexivity|]. split; [apply line_tells; vm_compute; reflexivity|].
  split; [discriminate|]. exists (lit "3"), 99%N, (lit "4"). split; [reflexivity|]. split; [|cbn; auto]. exists (lit "3"), []. split; [reflexivity|]. split; [|constructor]. apply D; [discriminate|reflexivity].
Qed.
