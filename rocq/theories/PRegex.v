(** Lemmas about the matcher. *)
From Coq Require Import String.
From Verif Require Import Base QtStr Regex Patterns.

Section R.
Context {R : Type}.
Implicit Types (k : str -> caps -> option R) (s : str) (c : caps).

Lemma m_seq a b k s c : matches (RSeq a b) k s c = matches a (matches b k) s c.
Proof. reflexivity. Qed.
Lemma m_eps k s c : matches REps k s c = k s c.
Proof. reflexivity. Qed.
Lemma m_alt a b k s c :
  matches (RAlt a b) k s c = match matches a k s c with Some r => Some r | None => matches b k s c end.
Proof. reflexivity. Qed.
Lemma m_group n a k s c :
  matches (RGroup n a) k s c =
  matches a (fun s' c' => k s' ((n, firstn (length s - length s') s) :: c')) s c.
Proof. reflexivity. Qed.
Lemma m_chr p k s c :
  matches (RChr p) k s c = match s with x :: s' => if p x then k s' c else None | [] => None end.
Proof. reflexivity. Qed.

Lemma m_text l k s c :
  matches (text l) k s c =
  if starts_with l s then k (skipn (length l) s) c else None.
Proof.
  revert s. induction l as [|a l IH]; intros s; [reflexivity|].
  cbn [text]. rewrite m_seq. unfold is. rewrite m_chr.
  destruct s as [|x s]; cbn [starts_with]; [reflexivity|].
  destruct (N.eqb a x); cbn [andb length skipn]; [apply IH|reflexivity].
Qed.

Lemma m_star_chr p k s c :
  matches (RStar true (RChr p)) k s c =
  match s with
  | x :: s' => if p x then match matches (RStar true (RChr p)) k s' c with
                           | Some r => Some r | None => k s c end
               else k s c
  | [] => k [] c
  end.
Proof.
  destruct s as [|x s]; [reflexivity|].
  cbn [matches length]. destruct (p x); [|reflexivity].
  replace (Nat.ltb (length s) (S (length s))) with true by (symmetry; apply Nat.ltb_lt; lia).
  reflexivity.
Qed.
Lemma m_lazy_chr p k s c :
  matches (RStar false (RChr p)) k s c =
  match k s c with
  | Some r => Some r
  | None => match s with
            | x :: s' => if p x then matches (RStar false (RChr p)) k s' c else None
            | [] => None
            end
  end.
Proof.
  destruct s as [|x s].
  - cbn. destruct (k [] c); reflexivity.
  - cbn [matches length]. destruct (k (x :: s) c); [reflexivity|].
    destruct (p x); [|reflexivity].
    replace (Nat.ltb (length s) (S (length s))) with true by (symmetry; apply Nat.ltb_lt; lia).
    reflexivity.
Qed.

(** The star takes [w] and the rest is matched by [k], when no longer choice leads to a match. *)
Lemma m_star_take p k w rest c r :
  forallb p w = true -> k rest c = Some r ->
  (forall x w2 rest2, rest = x :: w2 ++ rest2 -> forallb p (x :: w2) = true -> k rest2 c = None) ->
  matches (RStar true (RChr p)) k (w ++ rest) c = Some r.
Proof.
  intros Hw Hk Hlong. induction w as [|y w IH]; cbn [app].
  - clear Hw. rewrite m_star_chr. destruct rest as [|x rest]; [exact Hk|].
    destruct (p x) eqn:Hx; [|exact Hk].
    assert (N : matches (RStar true (RChr p)) k rest c = None).
    { clear Hk. assert (G : forall w2 rest2, rest = w2 ++ rest2 -> forallb p w2 = true -> k rest2 c = None).
      { intros w2 rest2 E F. apply (Hlong x w2 rest2); [now rewrite E|]. cbn. now rewrite Hx, F. }
      clear Hlong. induction rest as [|z rest IH].
      - rewrite m_star_chr. exact (G [] [] eq_refl eq_refl).
      - rewrite m_star_chr. destruct (p z) eqn:Hz.
        + rewrite IH; [exact (G [] (z :: rest) eq_refl eq_refl)|].
          intros w2 rest2 E F. apply (G (z :: w2) rest2); [now rewrite E|]. cbn. now rewrite Hz, F.
        + exact (G [] (z :: rest) eq_refl eq_refl). }
    rewrite N. exact Hk.
  - cbn in Hw. apply andb_prop in Hw as [Hy Hw]. rewrite m_star_chr, Hy, (IH Hw). reflexivity.
Qed.
Lemma m_star_longest p k w rest c r :
  forallb p w = true -> match rest with x :: _ => p x = false | [] => True end ->
  k rest c = Some r -> matches (RStar true (RChr p)) k (w ++ rest) c = Some r.
Proof.
  intros Hw Hr Hk. apply m_star_take; auto.
  intros x w2 rest2 -> F. cbn in F. rewrite Hr in F. discriminate.
Qed.
Lemma m_star_none p k s c :
  (forall w rest, s = w ++ rest -> forallb p w = true -> k rest c = None) ->
  matches (RStar true (RChr p)) k s c = None.
Proof.
  induction s as [|x s IH]; intros H.
  - rewrite m_star_chr. exact (H [] [] eq_refl eq_refl).
  - rewrite m_star_chr. destruct (p x) eqn:E.
    + rewrite IH; [exact (H [] (x :: s) eq_refl eq_refl)|].
      intros w rest -> F. apply (H (x :: w) rest eq_refl). cbn. now rewrite E, F.
    + exact (H [] (x :: s) eq_refl eq_refl).
Qed.
(** When a star matches, it took some prefix of the class. *)
Lemma m_star_some p k s c r :
  matches (RStar true (RChr p)) k s c = Some r ->
  exists w rest, s = w ++ rest /\ forallb p w = true /\ k rest c = Some r.
Proof.
  induction s as [|x s IH]; rewrite m_star_chr; intros H.
  - exists [], []. auto.
  - destruct (p x) eqn:E.
    + destruct (matches (RStar true (RChr p)) k s c) as [r'|] eqn:F.
      * injection H as <-. destruct (IH eq_refl) as (w & rest & -> & G & K).
        exists (x :: w), rest. cbn. rewrite E, G. auto.
      * exists [], (x :: s). auto.
    + exists [], (x :: s). auto.
Qed.

(** Continuations that agree. *)
Lemma m_ext a : forall k k' s c, (forall s c, k s c = k' s c) -> matches a k s c = matches a k' s c.
Proof.
  induction a; intros k k' s c H; cbn [matches].
  - apply H.
  - destruct s; [reflexivity|]. destruct (p c0); [apply H|reflexivity].
  - apply IHa1. intros. apply IHa2. exact H.
  - rewrite (IHa1 k k' s c H), (IHa2 k k' s c H). reflexivity.
  - generalize (length s) as n. intros n. revert s c. induction n as [|n IHn]; intros s c; [apply H|].
    assert (E : matches a (fun s' c' => if Nat.ltb (length s') (length s) then
       (fix star (n : nat) (s : str) (c : caps) : option R :=
         match n with
         | 0 => k s c
         | S n' =>
             if greedy then
               match matches a (fun s' c' => if Nat.ltb (length s') (length s) then star n' s' c' else None) s c with
               | Some r => Some r
               | None => k s c
               end
             else
               match k s c with
               | Some r => Some r
               | None => matches a (fun s' c' => if Nat.ltb (length s') (length s) then star n' s' c' else None) s c
               end
         end) n s' c' else None) s c =
     matches a (fun s' c' => if Nat.ltb (length s') (length s) then
       (fix star (n : nat) (s : str) (c : caps) : option R :=
         match n with
         | 0 => k' s c
         | S n' =>
             if greedy then
               match matches a (fun s' c' => if Nat.ltb (length s') (length s) then star n' s' c' else None) s c with
               | Some r => Some r
               | None => k' s c
               end
             else
               match k' s c with
               | Some r => Some r
               | None => matches a (fun s' c' => if Nat.ltb (length s') (length s) then star n' s' c' else None) s c
               end
         end) n s' c' else None) s c).
    { apply IHa. intros s' c'. destruct (Nat.ltb (length s') (length s)); [apply IHn|reflexivity]. }
    rewrite E, H. reflexivity.
  - apply IHa. intros. apply H.
Qed.
End R.
