(** One round of a greedy star over any expression. *)
From Coq Require Import String.
From Verif Require Import Base QtStr Regex PRegex.

Section S.
Context {R : Type}.
Implicit Types (k : str -> caps -> option R).
Lemma m_none a : forall k s c, (forall s c, k s c = None) -> matches a k s c = None.
Proof.
  induction a; intros k s c H; cbn [matches].
  - apply H.
  - destruct s; [reflexivity|]. destruct (p c0); [apply H|reflexivity].
  - apply IHa1. intros. apply IHa2. exact H.
  - rewrite IHa1, IHa2 by assumption. reflexivity.
  - generalize (length s) at 1 as n. intros n. revert s c. induction n as [|n IHn]; intros s c; [apply H|].
    destruct greedy; rewrite H, IHa; auto; intros; destruct (Nat.ltb _ _); auto.
  - apply IHa. intros. apply H.
Qed.
Definition rounds (a : re) k := fix star (n : nat) (s : str) (c : caps) : option R :=
  match n with
  | 0 => k s c
  | S n' => match matches a (fun s' c' => if Nat.ltb (length s') (length s) then star n' s' c' else None) s c with
            | Some r => Some r
            | None => k s c
            end
  end.
Lemma star_rounds a k s c : matches (RStar true a) k s c = rounds a k (length s) s c.
Proof. reflexivity. Qed.
Lemma rounds_enough a k N : forall n n' s c, (length s <= N)%nat -> (length s <= n)%nat -> (length s <= n')%nat ->
  rounds a k n s c = rounds a k n' s c.
Proof.
  induction N as [|N IH]; intros n n' s c L L1 L2.
  - assert (length s = 0)%nat as L0 by lia.
    assert (Z : forall n, rounds a k n s c = k s c).
    { intros [|m]; [reflexivity|]. cbn [rounds]. rewrite m_none; [reflexivity|]. intros s' c'.
      replace (Nat.ltb (length s') (length s)) with false; [reflexivity|]. symmetry. apply Nat.ltb_ge. lia. }
    rewrite !Z. reflexivity.
  - destruct s as [|x s].
    + assert (Z : forall n, rounds a k n [] c = k [] c).
      { intros [|m]; [reflexivity|]. cbn [rounds]. rewrite m_none; [reflexivity|]. intros s' c'. reflexivity. }
      rewrite !Z. reflexivity.
    + cbn [length] in *. destruct n as [|n]; [lia|]. destruct n' as [|n']; [lia|]. cbn [rounds].
      rewrite (m_ext a (fun s' c' => if Nat.ltb (length s') (length (x :: s)) then rounds a k n s' c' else None)
                 (fun s' c' => if Nat.ltb (length s') (length (x :: s)) then rounds a k n' s' c' else None)); [reflexivity|].
      intros s' c'. destruct (Nat.ltb_spec (length s') (length (x :: s))); [|reflexivity].
      cbn [length] in *. apply IH; lia.
Qed.
Lemma m_star_round a k s c : matches (RStar true a) k s c =
  match matches a (fun s' c' => if Nat.ltb (length s') (length s) then matches (RStar true a) k s' c' else None) s c with
  | Some r => Some r
  | None => k s c
  end.
Proof.
  rewrite star_rounds. rewrite (rounds_enough a k (length s) (length s) (S (length s))) by lia. cbn [rounds].
  rewrite (m_ext a _ (fun s' c' => if Nat.ltb (length s') (length s) then matches (RStar true a) k s' c' else None)); [reflexivity|].
  intros s' c'. destruct (Nat.ltb_spec (length s') (length s)); [|reflexivity]. rewrite star_rounds.
  apply (rounds_enough a k (length s')); lia.
Qed.
End S.
