(** What the header patterns match. *)
From Coq Require Import String Permutation.
From Verif Require Import Base QtStr Diff Regex Patterns Parser SpecPatch SpecParse PRegex.
Local Open Scope Z_scope.

Lemma starts_with_app p s : starts_with p s = true <-> exists s', s = p ++ s'.
Proof.
  revert s. induction p as [|c p IH]; intros s; cbn [starts_with].
  - split; [exists s; reflexivity|auto].
  - destruct s as [|x s]; [split; [discriminate|intros [s' H]; discriminate]|].
    rewrite andb_true_iff, IH. split.
    + intros [H [s' ->]]. apply N.eqb_eq in H as ->. exists s'. reflexivity.
    + intros [s' H]. injection H as -> ->. split; [apply N.eqb_refl|eauto].
Qed.
Lemma skipn_app_len {A} (p s : list A) : skipn (length p) (p ++ s) = s.
Proof. induction p; cbn; auto. Qed.
Lemma group_text (w rest : str) : firstn (length (w ++ rest) - length rest) (w ++ rest) = w.
Proof.
  rewrite app_length. replace (length w + length rest - length rest)%nat with (length w) by lia.
  rewrite firstn_app, firstn_all, Nat.sub_diag. cbn. apply app_nil_r.
Qed.

Section I.
Context {R : Type}.
Implicit Types (k : str -> caps -> option R) (s : str) (c : caps) (r : R).
Lemma i_text l k s c r : matches (text l) k s c = Some r -> exists s', s = l ++ s' /\ k s' c = Some r.
Proof.
  rewrite m_text. destruct (starts_with l s) eqn:E; [|discriminate].
  apply starts_with_app in E as [s' ->]. rewrite skipn_app_len. eauto.
Qed.
Lemma i_is x k s c r : matches (is x) k s c = Some r -> exists s', s = x :: s' /\ k s' c = Some r.
Proof.
  unfold is. rewrite m_chr. destruct s as [|y s]; [discriminate|]. destruct (N.eqb_spec x y) as [->|]; [eauto|discriminate].
Qed.
Lemma i_chr p k s c r : matches (RChr p) k s c = Some r -> exists x s', s = x :: s' /\ p x = true /\ k s' c = Some r.
Proof. rewrite m_chr. destruct s as [|y s]; [discriminate|]. destruct (p y) eqn:E; [eauto|discriminate]. Qed.
Lemma i_star p k s c r : matches (RStar true (RChr p)) k s c = Some r ->
  exists w rest, s = w ++ rest /\ forallb p w = true /\ k rest c = Some r.
Proof. apply m_star_some. Qed.
(** The choice is the longest that works. *)
Lemma i_star_max p k s c r : matches (RStar true (RChr p)) k s c = Some r ->
  exists w rest, s = w ++ rest /\ forallb p w = true /\ k rest c = Some r /\
    (forall x w2 rest2, rest = x :: w2 ++ rest2 -> forallb p (x :: w2) = true -> k rest2 c = None).
Proof.
  revert r. induction s as [|x s IH]; intros r; rewrite m_star_chr; intros H.
  - exists [], []. repeat split; auto. intros; discriminate.
  - destruct (p x) eqn:E.
    + destruct (matches (RStar true (RChr p)) k s c) as [r'|] eqn:F.
      * injection H as <-. destruct (IH _ eq_refl) as (w & rest & -> & G & K & M).
        exists (x :: w), rest. cbn. rewrite E, G. auto.
      * exists [], (x :: s). repeat split; auto.
        intros y w2 rest2 EQ P. injection EQ as <- ->.
        destruct (k rest2 c) as [r2|] eqn:K2; [|reflexivity]. exfalso.
        cbn in P. rewrite E in P. cbn in P.
        assert (matches (RStar true (RChr p)) k (w2 ++ rest2) c <> None); [|congruence].
        clear F IH H. induction w2 as [|z w2 IHw]; cbn [app].
        -- rewrite m_star_chr. destruct rest2 as [|y r3]; [congruence|]. destruct (p y); [|congruence].
           destruct (matches _ _ r3 c); congruence.
        -- cbn in P. apply andb_prop in P as [Pz P]. rewrite m_star_chr, Pz.
           destruct (matches _ _ (w2 ++ rest2) c); [discriminate|]. exfalso. now apply IHw.
    + exists [], (x :: s). repeat split; auto. intros y w2 rest2 EQ P. injection EQ as <- ->.
      cbn in P. rewrite E in P. discriminate.
Qed.
Lemma i_plus_max p k s c r : matches (plus (RChr p)) k s c = Some r ->
  exists w rest, s = w ++ rest /\ w <> [] /\ forallb p w = true /\ k rest c = Some r /\
    (forall x w2 rest2, rest = x :: w2 ++ rest2 -> forallb p (x :: w2) = true -> k rest2 c = None).
Proof.
  unfold plus. rewrite m_seq. intros H. apply i_chr in H as (x & s' & -> & P & H).
  apply i_star_max in H as (w & rest & -> & F & K & M).
  exists (x :: w), rest. cbn [forallb app]. rewrite P, F. repeat split; auto. discriminate.
Qed.
Lemma i_plus p k s c r : matches (plus (RChr p)) k s c = Some r ->
  exists w rest, s = w ++ rest /\ w <> [] /\ forallb p w = true /\ k rest c = Some r.
Proof. intros H. apply i_plus_max in H as (w & rest & A & B & C & D & _). eauto 8. Qed.
Lemma i_digits k s c r : matches digits k s c = Some r ->
  exists w rest, s = w ++ rest /\ w <> [] /\ forallb is_digit w = true /\ k rest c = Some r.
Proof. apply i_plus. Qed.
Lemma i_alt a b k s c r : matches (RAlt a b) k s c = Some r ->
  matches a k s c = Some r \/ (matches a k s c = None /\ matches b k s c = Some r).
Proof. rewrite m_alt. destruct (matches a k s c); [left|right]; auto. Qed.

(** Success, to evaluate matches. *)
Lemma s_text l k s c : matches (text l) k (l ++ s) c = k s c.
Proof. rewrite m_text, (proj2 (starts_with_app l (l ++ s)) (ex_intro _ s eq_refl)), skipn_app_len. reflexivity. Qed.
Lemma s_is x k s c : matches (is x) k (x :: s) c = k s c.
Proof. unfold is. rewrite m_chr, N.eqb_refl. reflexivity. Qed.
Lemma s_is_nil x k c : matches (is x) k [] c = None.
Proof. reflexivity. Qed.
Lemma s_is_other x y k s c : x <> y -> matches (is x) k (y :: s) c = None.
Proof. intros H. unfold is. rewrite m_chr. destruct (N.eqb_spec x y); congruence. Qed.
Lemma s_plus_longest p k w rest c r :
  w <> [] -> forallb p w = true -> match rest with x :: _ => p x = false | [] => True end ->
  k rest c = Some r -> matches (plus (RChr p)) k (w ++ rest) c = Some r.
Proof.
  intros N F M K. destruct w as [|x w]; [congruence|]. cbn in F. apply andb_prop in F as [F1 F2].
  unfold plus. rewrite m_seq. cbn [app]. rewrite m_chr, F1. apply m_star_longest; assumption.
Qed.
Lemma s_plus_take p k w rest c r :
  w <> [] -> forallb p w = true -> k rest c = Some r ->
  (forall x w2 rest2, rest = x :: w2 ++ rest2 -> forallb p (x :: w2) = true -> k rest2 c = None) ->
  matches (plus (RChr p)) k (w ++ rest) c = Some r.
Proof.
  intros N F K M. destruct w as [|x w]; [congruence|]. cbn in F. apply andb_prop in F as [F1 F2].
  unfold plus. rewrite m_seq. cbn [app]. rewrite m_chr, F1. apply m_star_take; assumption.
Qed.
End I.

Lemma not_nl_any w : forallb (fun x => negb (N.eqb x NL)) w = true <-> ~ In NL w.
Proof.
  induction w as [|x w IH]; cbn; [tauto|]. rewrite andb_true_iff, IH, negb_true_iff.
  destruct (N.eqb_spec x NL); intuition congruence.
Qed.
Lemma not_chr_any c w : forallb (fun x => negb (N.eqb x c)) w = true <-> ~ In c w.
Proof.
  induction w as [|x w IH]; cbn; [tauto|]. rewrite andb_true_iff, IH, negb_true_iff.
  destruct (N.eqb_spec x c); intuition congruence.
Qed.

Ltac inv_match H :=
  match type of H with
  | matches (RSeq _ _) _ _ _ = Some _ => rewrite m_seq in H; inv_match H
  | matches (T _) _ _ _ = Some _ => unfold T in H; apply i_text in H as (? & -> & H)
  | matches nl _ _ _ = Some _ => unfold nl in H; apply i_is in H as (? & -> & H)
  | matches tab _ _ _ = Some _ => unfold tab in H; apply i_is in H as (? & -> & H)
  | matches (is _) _ _ _ = Some _ => apply i_is in H as (? & -> & H)
  | matches (RGroup _ _) _ _ _ = Some _ => rewrite m_group in H; inv_match H
  | matches digits _ _ _ = Some _ => unfold digits, digit in H; apply i_plus in H as (? & ? & -> & ? & ? & H); rewrite ?group_text in H
  | matches (star any) _ _ _ = Some _ => unfold star, any in H; apply i_star in H as (? & ? & -> & ? & H); rewrite ?group_text in H
  | matches (opt _) _ _ _ = Some _ => unfold opt in H; inv_match H
  | matches REps _ _ _ = Some _ => rewrite m_eps in H
  | matches (RAlt _ _) _ _ _ = Some _ => apply i_alt in H as [H|[? H]]; inv_match H
  end.

Lemma end_inv (s : str) (c c' : caps) :
  (match s with [] => Some c | _ :: _ => None end) = Some c' -> s = [] /\ c' = c.
Proof. destruct s; [|discriminate]. intros H; injection H; auto. Qed.

(** One optional count. *)
Lemma i_count (R : Type) g1 g2 (k : str -> caps -> option R) s c r :
  matches (RGroup g1 (RAlt REps (T "," ~~ RGroup g2 digits))) k s c = Some r ->
  (k s ((g1, firstn (length s - length s) s) :: c) = Some r) \/
  (exists w rest, s = lit "," ++ w ++ rest /\ digit_string w /\
     k rest ((g1, firstn (length s - length rest) s) :: (g2, w) :: c) = Some r).
Proof.
  intros H. rewrite m_group in H. apply i_alt in H as [H|[_ H]].
  - left. exact H.
  - right. inv_match H. rewrite m_group in H. unfold digits, digit in H.
    apply i_plus in H as (w & rest & -> & N & F & H). rewrite group_text in H.
    exists w, rest. split; [reflexivity|]. split; [split; assumption|]. exact H.
Qed.

Lemma unified_hunk_header_inv l c : full_match unified_hunk_header l = Some c ->
  exists n1 k1 n2 k2 sep f,
    l = lit "@@ -" ++ (n1 ++ k1) ++ lit " +" ++ (n2 ++ k2) ++ lit " @@" ++ sep ++ f ++ [NL] /\
    digit_string n1 /\ digit_string n2 /\ (sep = [] \/ sep = lit " ") /\ ~ In NL f /\
    ((k1 = [] /\ captured 3 c = []) \/ (digit_string (captured 3 c) /\ k1 = lit "," ++ captured 3 c)) /\
    ((k2 = [] /\ captured 6 c = []) \/ (digit_string (captured 6 c) /\ k2 = lit "," ++ captured 6 c)) /\
    captured 1 c = n1 /\ captured 4 c = n2 /\ captured 7 c = f.
Proof.
  unfold full_match, unified_hunk_header. intros H.
  inv_match H. rewrite m_seq in H. inv_match H.
  rename x0 into n1. rewrite m_seq in H.
  assert (Hend : forall s cc cc1, matches (T " @@" ~~ opt (is SP) ~~ RGroup 7 (star any) ~~ nl)
     (fun s' c0 => match s' with [] => Some c0 | _ :: _ => None end) s cc = Some cc1 ->
     exists sep f, s = lit " @@" ++ sep ++ f ++ [NL] /\ (sep = [] \/ sep = lit " ") /\ ~ In NL f /\ cc1 = (7%nat, f) :: cc).
  { intros s cc cc1 K. inv_match K. rewrite m_seq in K. unfold opt in K. apply i_alt in K as [K|[_ K]].
    - apply i_is in K as (s2 & -> & K). inv_match K. inv_match K. apply end_inv in K as [-> ->].
      exists (lit " "). eexists. repeat split; [right; reflexivity|]. now apply not_nl_any.
    - rewrite m_eps in K. inv_match K. inv_match K. apply end_inv in K as [-> ->].
      exists []. eexists. repeat split; [left; reflexivity|]. now apply not_nl_any. }
  assert (Hsec : forall s cc cc1, matches (T " +" ~~ RGroup 4 digits ~~ RGroup 5 (RAlt REps (T "," ~~ RGroup 6 digits)) ~~ T " @@" ~~ opt (is SP) ~~ RGroup 7 (star any) ~~ nl)
     (fun s' c0 => match s' with [] => Some c0 | _ :: _ => None end) s cc = Some cc1 ->
     exists n2 k2 sep f g5, s = lit " +" ++ (n2 ++ k2) ++ lit " @@" ++ sep ++ f ++ [NL] /\ digit_string n2 /\
       (sep = [] \/ sep = lit " ") /\ ~ In NL f /\
       ((k2 = [] /\ cc1 = (7%nat, f) :: (5%nat, g5) :: (4%nat, n2) :: cc) \/
        (exists w, digit_string w /\ k2 = lit "," ++ w /\ cc1 = (7%nat, f) :: (5%nat, g5) :: (6%nat, w) :: (4%nat, n2) :: cc))).
  { intros s cc cc1 K. inv_match K. rewrite m_seq, m_group in K.
    apply i_digits in K as (n2 & rest0 & -> & N2 & F2 & K). rewrite group_text in K. rewrite m_seq in K.
    assert (D2 : digit_string n2) by (split; assumption).
    apply i_count in K as [K|(w & rest & -> & DW & K)].
    - apply Hend in K as (sep & f & -> & S & F & ->). eexists n2, [], sep, f, _.
      split; [rewrite app_nil_r; reflexivity|]. repeat split; try assumption. left. split; reflexivity.
    - apply Hend in K as (sep & f & -> & S & F & ->). eexists n2, (lit "," ++ w), sep, f, _.
      split; [rewrite <- !app_assoc; reflexivity|]. repeat split; try assumption. right. exists w.
      repeat split; try assumption; apply DW. }
  apply i_count in H as [H|(w & rest & -> & DW & H)].
  - apply Hsec in H as (n2 & k2 & sep & f & g5 & -> & D2 & S & F & C2).
    eexists n1, [], n2, k2, sep, f. rewrite app_nil_r.
    destruct C2 as [[-> ->]|(w & DW & -> & ->)]; cbn; repeat split; auto; try apply D2; try (left; auto; fail).
  - apply Hsec in H as (n2 & k2 & sep & f & g5 & -> & D2 & S & F & C2).
    eexists n1, (lit "," ++ w), n2, k2, sep, f.
    split; [rewrite <- !app_assoc; reflexivity|].
    destruct C2 as [[-> ->]|(w2 & DW2 & -> & ->)]; cbn; repeat split; auto; try apply D2; try (left; auto; fail);
      right; split; auto.
Qed.

(** Numbers. *)
Lemma to_int_reads n : digit_string n -> to_int n = reads n.
Proof.
  intros [N D]. unfold to_int, reads, fits. rewrite D. destruct n; [congruence|]. cbn [length Nat.eqb negb andb].
  reflexivity.
Qed.
Lemma to_int_opt_reads n : digit_string n -> to_int_opt n = if fits n then Some (digits_value 0 n) else None.
Proof.
  intros [N D]. unfold to_int_opt, fits. rewrite D. destruct n; [congruence|]. reflexivity.
Qed.
Lemma digits_nonneg s : forall acc, 0 <= acc -> forallb is_digit s = true -> 0 <= digits_value acc s.
Proof.
  induction s as [|x s IH]; intros acc A F; cbn; [exact A|]. cbn in F. apply andb_prop in F as [F1 F2].
  apply IH; [|exact F2]. unfold is_digit in F1. apply andb_prop in F1 as [F1 F3].
  apply N.leb_le in F1. apply N.leb_le in F3. unfold chr in *. lia.
Qed.
Lemma hunk_side_bare n : digit_string n -> hunk_side n [] = Some (reads n, 1).
Proof. intros D. unfold hunk_side. now rewrite to_int_reads. Qed.
Lemma hunk_side_side n k : digit_string n ->
  (forall cnt kk, hunk_side n cnt = Some kk -> (cnt = [] /\ k = [] \/ digit_string cnt /\ k = lit "," ++ cnt) -> side (n ++ k) (Some (fst kk))) /\
  (forall cnt, hunk_side n cnt = None -> (cnt = [] /\ k = [] \/ digit_string cnt /\ k = lit "," ++ cnt) -> side (n ++ k) None).
Proof.
  intros D. split.
  - intros cnt kk H [[-> ->]|[DC ->]].
    + rewrite hunk_side_bare in H by assumption. injection H as <-. rewrite app_nil_r. now constructor.
    + unfold hunk_side in H. rewrite (to_int_reads n D), (to_int_opt_reads cnt DC) in H.
      destruct cnt as [|x cn] eqn:EC; [destruct DC; congruence|]. rewrite <- EC in *. clear EC.
      destruct (fits cnt) eqn:F; [|discriminate]. injection H as <-. cbn [fst].
      destruct (Z.eqb_spec (digits_value 0 cnt) 0); [now apply side_empty|now apply side_count].
  - intros cnt H [[-> ->]|[DC ->]].
    + rewrite hunk_side_bare in H by assumption. discriminate.
    + unfold hunk_side in H. rewrite (to_int_opt_reads cnt DC) in H.
      destruct cnt as [|x cn] eqn:EC; [destruct DC; congruence|]. rewrite <- EC in *. clear EC.
      destruct (fits cnt) eqn:F; [discriminate|]. now apply side_unreadable.
Qed.
