(** The matcher accepts exactly the language. *)
From Verif Require Import Base QtStr Regex SpecRegex PRegex.

Section S.
Context {R : Type}.
Lemma matches_sound a : forall (k : str -> caps -> option R) s c r,
  matches a k s c = Some r ->
  exists w rest c', s = w ++ rest /\ lang a w /\ k rest c' = Some r.
Proof.
  induction a; intros k s c r H.
  - exists [], s, c. repeat split; auto. constructor.
  - rewrite m_chr in H. destruct s as [|x s]; [discriminate|]. destruct (p x) eqn:E; [|discriminate].
    exists [x], s, c. repeat split; auto. now constructor.
  - rewrite m_seq in H. apply IHa1 in H as (u & rest & c1 & -> & L1 & H).
    apply IHa2 in H as (v & rest2 & c2 & -> & L2 & H).
    exists (u ++ v), rest2, c2. rewrite app_assoc. repeat split; auto. now constructor.
  - rewrite m_alt in H. destruct (matches a1 k s c) as [r'|] eqn:E.
    + injection H as ->. apply IHa1 in E as (w & rest & c' & -> & L & H). exists w, rest, c'.
      repeat split; auto. now apply l_alt1.
    + apply IHa2 in H as (w & rest & c' & -> & L & H). exists w, rest, c'.
      repeat split; auto. now apply l_alt2.
  - cbn [matches] in H. revert H. generalize (length s) as n. intros n. revert s c.
    induction n as [|n IHn]; intros s c H.
    + exists [], s, c. repeat split; auto. constructor.
    + assert (G : forall o : option R,
        (o = matches a (fun s' c' => if Nat.ltb (length s') (length s) then
         (fix star (n : nat) (s : str) (c : caps) : option R :=
         match n with
         | 0 => k s c
         | S n' =>
             if greedy then
               match matches a (fun s' c' => if Nat.ltb (length s') (length s) then star n' s' c' else None) s c with
               | Some r => Some r
               | None => k s c
               end
             else
               match k s c with
               | Some r => Some r
               | None => matches a (fun s' c' => if Nat.ltb (length s') (length s) then star n' s' c' else None) s c
               end
         end) n s' c' else None) s c) -> o = Some r ->
        exists w rest c', s = w ++ rest /\ lang (RStar greedy a) w /\ k rest c' = Some r).
      { intros o -> E. apply IHa in E as (u & rest & c1 & -> & L & E).
        destruct (Nat.ltb (length rest) (length (u ++ rest))); [|discriminate].
        apply IHn in E as (v & rest2 & c2 & -> & L2 & E).
        exists (u ++ v), rest2, c2. rewrite app_assoc. repeat split; auto. now apply l_star. }
      assert (Z : k s c = Some r -> exists w rest c', s = w ++ rest /\ lang (RStar greedy a) w /\ k rest c' = Some r).
      { intros E. exists [], s, c. repeat split; auto. constructor. }
      destruct greedy.
      * destruct (matches a _ s c) as [r'|] eqn:E in H.
        -- eapply G; [symmetry; exact E|congruence].
        -- exact (Z H).
      * destruct (k s c) as [r'|] eqn:E.
        -- apply Z. congruence.
        -- eapply G; [reflexivity|exact H].
  - rewrite m_group in H. apply IHa in H as (w & rest & c' & -> & L & H).
    eexists w, rest, _. repeat split; [now constructor|exact H].
Qed.

Lemma matches_complete a w : lang a w -> forall (k : str -> caps -> option R) rest,
  (forall c, k rest c <> None) -> forall c, matches a k (w ++ rest) c <> None.
Proof.
  induction 1; intros k rest K cc.
  - apply K.
  - rewrite m_chr. cbn. rewrite H. apply K.
  - rewrite m_seq, <- app_assoc. apply IHlang1. intros c'. now apply IHlang2.
  - rewrite m_alt. specialize (IHlang k rest K cc). destruct (matches a k (u ++ rest) cc); congruence.
  - rewrite m_alt. specialize (IHlang k rest K cc). destruct (matches a k (u ++ rest) cc); congruence.
  - cbn [matches app]. specialize (K cc). destruct (length rest) as [|n]; [exact K|].
    destruct g.
    + destruct (matches a _ rest cc); congruence.
    + destruct (k rest cc); congruence.
  - destruct u as [|x u]; [apply IHlang2; exact K|].
    rewrite <- app_assoc. set (s := (x :: u) ++ v ++ rest).
    assert (Sn : length s = S (length (u ++ v ++ rest))) by reflexivity.
    assert (ST : forall n s' c', length s' <= n -> matches (RStar g a) k s' c' <> None ->
       (fix star (n : nat) (s : str) (c : caps) : option R :=
         match n with
         | 0 => k s c
         | S n' =>
             if g then
               match matches a (fun s' c' => if Nat.ltb (length s') (length s) then star n' s' c' else None) s c with
               | Some r => Some r
               | None => k s c
               end
             else
               match k s c with
               | Some r => Some r
               | None => matches a (fun s' c' => if Nat.ltb (length s') (length s) then star n' s' c' else None) s c
               end
         end) n s' c' <> None).
    { (* more fuel does not change the result *)
      assert (EQ : forall n n' s' c', length s' <= n -> length s' <= n' ->
        (fix star (n : nat) (s : str) (c : caps) : option R :=
         match n with
         | 0 => k s c
         | S n' =>
             if g then
               match matches a (fun s' c' => if Nat.ltb (length s') (length s) then star n' s' c' else None) s c with
               | Some r => Some r
               | None => k s c
               end
             else
               match k s c with
               | Some r => Some r
               | None => matches a (fun s' c' => if Nat.ltb (length s') (length s) then star n' s' c' else None) s c
               end
         end) n s' c' =
        (fix star (n : nat) (s : str) (c : caps) : option R :=
         match n with
         | 0 => k s c
         | S n' =>
             if g then
               match matches a (fun s' c' => if Nat.ltb (length s') (length s) then star n' s' c' else None) s c with
               | Some r => Some r
               | None => k s c
               end
             else
               match k s c with
               | Some r => Some r
               | None => matches a (fun s' c' => if Nat.ltb (length s') (length s) then star n' s' c' else None) s c
               end
         end) n' s' c').
      { assert (NN : forall (f : str -> caps -> option R) c', matches a (fun s' c' => if Nat.ltb (length s') (length (@nil chr)) then f s' c' else None) [] c' = None).
        { intros f c'. destruct (matches a _ [] c') as [r|] eqn:E; [|reflexivity].
          apply matches_sound in E as (w & rest' & c1 & _ & _ & E). cbn in E. discriminate. }
        induction n as [|n IHn]; intros n' s' c' L1 L2.
        - destruct s' as [|]; [|cbn in L1; lia]. destruct n'; [reflexivity|].
          rewrite NN. destruct g; destruct (k [] c'); reflexivity.
        - destruct n' as [|n'].
          + destruct s' as [|]; [|cbn in L2; lia]. rewrite NN. destruct g; destruct (k [] c'); reflexivity.
          + match goal with |- (if g then match ?A with _ => _ end else _) = (if g then match ?B with _ => _ end else _) => assert (EE : A = B) end.
            { apply m_ext. intros s2 c2. destruct (Nat.ltb (length s2) (length s')) eqn:LT; [|reflexivity].
              apply Nat.ltb_lt in LT. apply IHn; lia. }
            rewrite EE. reflexivity. }
      intros n s' c' L N. rewrite (EQ n (length s') s' c' L (le_n _)). exact N. }
    assert (B : matches a (fun s' c' => if Nat.ltb (length s') (length s) then
         (fix star (n : nat) (s : str) (c : caps) : option R :=
         match n with
         | 0 => k s c
         | S n' =>
             if g then
               match matches a (fun s' c' => if Nat.ltb (length s') (length s) then star n' s' c' else None) s c with
               | Some r => Some r
               | None => k s c
               end
             else
               match k s c with
               | Some r => Some r
               | None => matches a (fun s' c' => if Nat.ltb (length s') (length s) then star n' s' c' else None) s c
               end
         end) (length (u ++ v ++ rest)) s' c' else None) s cc <> None).
    { apply (IHlang1 _ (v ++ rest)). intros c'.
      replace (Nat.ltb (length (v ++ rest)) (length s)) with true
        by (symmetry; apply Nat.ltb_lt; unfold s; rewrite (app_length (x :: u)); cbn; lia).
      apply ST; [rewrite (app_length u); lia|]. apply IHlang2. exact K. }
    cbn [matches]. rewrite Sn. destruct g.
    + match goal with |- match ?A with _ => _ end <> None => destruct A eqn:E end; [discriminate|].
      exfalso. apply B. reflexivity.
    + destruct (k s cc); [discriminate|]. exact B.
  - rewrite m_group. apply IHlang. intros c'. apply K.
Qed.
End S.

Lemma has_match_lang a s : has_match a s = true <-> lang a s.
Proof.
  unfold has_match, full_match. split.
  - destruct (matches _ _ s []) eqn:E; [|discriminate]. intros _.
    apply matches_sound in E as (w & rest & c' & -> & L & E). destruct rest; [|discriminate].
    now rewrite app_nil_r.
  - intros L. pose proof (matches_complete a s L (fun s' c => match s' with [] => Some c | _ :: _ => None end) [] ) as H.
    rewrite app_nil_r in H. specialize (H ltac:(discriminate) []).
    destruct (matches _ _ s []); congruence.
Qed.
Lemma at_start_lang a s : at_start a s = true <-> exists w rest, s = w ++ rest /\ lang a w.
Proof.
  unfold at_start. split.
  - destruct (matches _ _ s []) eqn:E; [|discriminate]. intros _.
    apply matches_sound in E as (w & rest & c' & -> & L & _). eauto.
  - intros (w & rest & -> & L). pose proof (matches_complete a w L (fun (_ : str) c => Some c) rest ltac:(discriminate) []) as H.
    destruct (matches _ _ _ []); congruence.
Qed.
