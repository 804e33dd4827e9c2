(** The walk back through the table: marker lists. *)
From Coq Require Import ZifyBool ZifyNat ZifyN.
From Verif Require Import Base Lev SpecEdit PLevTable.
Ltac Zify.zify_post_hook ::= Z.div_mod_to_equations.

(** * Reading markers *)
Lemma offsets_weaken lo lo' ms len : lo' <= lo -> offsets_ordered lo ms len -> offsets_ordered lo' ms len.
Proof. destruct ms as [|m ms]; cbn; [auto|]. intros H [H1 H2]. split; [lia|exact H2]. Qed.

Lemma offsets_all lo ms len m : offsets_ordered lo ms len -> In m ms -> lo <= m_offset m.
Proof.
  revert lo; induction ms as [|m0 ms IH]; intros lo H; [intros []|].
  cbn in H. destruct H as [H1 H2]. intros [<-|Hin]; [lia|].
  specialize (IH _ H2 Hin). lia.
Qed.

Lemma changed_cons_low m ms k : m_offset m <= k -> changed (m :: ms) k = changed ms k.
Proof.
  intros H. unfold changed. cbn [find].
  assert (Nat.ltb k (m_offset m) = false) as -> by (apply Nat.ltb_ge; lia). reflexivity.
Qed.
Lemma changed_cons_high m ms k : k < m_offset m ->
  changed (m :: ms) k = match m_type m with MEnd => true | MStart => false end.
Proof.
  intros H. unfold changed. cbn [find].
  apply Nat.ltb_lt in H. rewrite H. destruct m as [[] o]; reflexivity.
Qed.

Lemma plain_ext {A} ms ms' pos (l : list A) :
  (forall k, pos <= k -> changed ms k = changed ms' k) -> plain_from ms pos l = plain_from ms' pos l.
Proof.
  revert pos; induction l as [|x l IH]; intros pos H; cbn; [reflexivity|].
  rewrite (H pos) by lia. rewrite (IH (S pos)) by (intros; apply H; lia). reflexivity.
Qed.
Lemma count_ext {A} ms ms' pos (l : list A) :
  (forall k, pos <= k -> changed ms k = changed ms' k) -> count_changed ms pos l = count_changed ms' pos l.
Proof.
  revert pos; induction l as [|x l IH]; intros pos H; cbn; [reflexivity|].
  rewrite (H pos) by lia. rewrite (IH (S pos)) by (intros; apply H; lia). reflexivity.
Qed.

(** What [mark] does: the new position x-1 gets the right reading, the others keep theirs. *)
Lemma mark_spec ms v cur x len :
  offsets_ordered x ms len -> 1 <= x <= len -> v <= cur ->
  offsets_ordered x (mark ms v cur x) len /\
  (forall k, x <= k -> changed (mark ms v cur x) k = changed ms k) /\
  changed (mark ms v cur x) (x - 1) = Nat.ltb v cur.
Proof.
  intros Ho Hx Hv. unfold mark.
  destruct ms as [|[[] o] ms].
  - destruct (Nat.ltb_spec v cur).
    + split; [cbn; lia|]. split; [intros k Hk; apply changed_cons_low; cbn; lia|].
      rewrite changed_cons_high by (cbn; lia). reflexivity.
    + split; [exact I|]. split; [reflexivity|]. reflexivity.
  - cbn in Ho. destruct (Nat.ltb_spec v cur).
    + split; [cbn; tauto || (cbn; intuition lia)|]. split; [intros k Hk; apply changed_cons_low; cbn; lia|].
      rewrite changed_cons_high by (cbn; lia). reflexivity.
    + split; [cbn; tauto|]. split; [reflexivity|].
      rewrite changed_cons_high by (cbn; lia). reflexivity.
  - cbn in Ho. destruct (Nat.eqb_spec v cur) as [E|E].
    + split; [cbn; intuition lia|]. split; [intros k Hk; apply changed_cons_low; cbn; lia|].
      rewrite changed_cons_high by (cbn; lia). cbn. symmetry. apply Nat.ltb_ge. lia.
    + split; [cbn; tauto|]. split; [reflexivity|].
      rewrite changed_cons_high by (cbn; lia). cbn. symmetry. apply Nat.ltb_lt. lia.
Qed.

Lemma skipn_pred {A} (l : list A) x : 1 <= x <= length l ->
  exists z, nth_error l (x - 1) = Some z /\ skipn (x - 1) l = z :: skipn x l.
Proof.
  intros H. destruct x as [|x]; [lia|]. replace (S x - 1) with x by lia.
  revert l H; induction x as [|x IH]; intros [|z l] H; cbn in H; try lia.
  - exists z. auto.
  - destruct (IH l) as (w & Hw & E); [lia|]. exists w. split; [exact Hw|]. cbn [skipn]. exact E.
Qed.

(** Effect on the plain text and the count when one more element comes in at the front. *)
Lemma plain_front {A} ms ms' x (l : list A) z : 1 <= x <= length l ->
  nth_error l (x - 1) = Some z ->
  (forall k, x <= k -> changed ms' k = changed ms k) ->
  plain_from ms' (x - 1) (skipn (x - 1) l) =
    (if changed ms' (x - 1) then [] else [z]) ++ plain_from ms x (skipn x l) /\
  count_changed ms' (x - 1) (skipn (x - 1) l) =
    (if changed ms' (x - 1) then 1 else 0) + count_changed ms x (skipn x l).
Proof.
  intros Hx Hz Hc. destruct (skipn_pred l x Hx) as (z' & Hz' & ->).
  assert (z' = z) as -> by congruence. cbn [plain_from count_changed].
  replace (S (x - 1)) with x by lia.
  rewrite (plain_ext ms' ms) by exact Hc. rewrite (count_ext ms' ms) by exact Hc.
  destruct (changed ms' (x - 1)); split; reflexivity.
Qed.

Section Walk.
Context {A : Type} (eqb : A -> A -> bool) (eqb_ok : forall x y, eqb x y = true <-> x = y).
Variables (a b : list A) (p : seqpair).
Hypothesis Hp : presents eqb a b p.
Notation pd := (pd eqb a b p).
Notation X := (length a).
Notation Y := (length b).
Variable t : table.
Hypothesis Hf : filled eqb a b p t.

Lemma cell_get x y : x <= X -> y <= Y -> get_content t x y = Ok (pd x y).
Proof.
  intros Hx Hy. destruct Hf as [Hs Hc]. rewrite (get_ok _ _ _ _ _ Hs) by lia. rewrite Hc by lia. reflexivity.
Qed.

(** Facts about one cell and its three neighbours. *)
Lemma pd_facts x y : 1 <= x <= X -> 1 <= y <= Y ->
  exists u v, nth_error a (x - 1) = Some u /\ nth_error b (y - 1) = Some v /\
  pd x y = Nat.min (pd x (y - 1) + 1) (Nat.min (pd (x - 1) y + 1)
             (pd (x - 1) (y - 1) + (if eqb u v then 0 else if sp_replace p then 1 else 2))) /\
  (eqb u v = true -> pd x y = pd (x - 1) (y - 1)) /\
  pd (x - 1) (y - 1) <= pd x y /\
  (pd x y <= pd x (y - 1) + 1 /\ pd x (y - 1) <= pd x y + 1) /\
  (pd x y <= pd (x - 1) y + 1 /\ pd (x - 1) y <= pd x y + 1) /\
  (pd x (y - 1) <= pd (x - 1) (y - 1) + 1 /\ pd (x - 1) (y - 1) <= pd x (y - 1) + 1) /\
  (pd (x - 1) y <= pd (x - 1) (y - 1) + 1 /\ pd (x - 1) (y - 1) <= pd (x - 1) y + 1) /\
  (sp_replace p = false ->
     (pd x y <> pd x (y - 1) /\ pd x y <> pd (x - 1) y /\
      pd x (y - 1) <> pd (x - 1) (y - 1) /\ pd (x - 1) y <> pd (x - 1) (y - 1) /\
      pd x y <> pd (x - 1) (y - 1) + 1)).
Proof.
  intros Hx Hy.
  destruct (rev_firstn_S a (x - 1)) as (u & Hu & Eu); [lia|].
  destruct (rev_firstn_S b (y - 1)) as (v & Hv & Ev); [lia|].
  exists u, v. split; [exact Hu|]. split; [exact Hv|].
  replace (S (x - 1)) with x in Eu by lia. replace (S (y - 1)) with y in Ev by lia.
  unfold PLevTable.pd. rewrite Eu, Ev.
  set (ra := rev (firstn (x - 1) a)). set (rb := rev (firstn (y - 1) b)).
  set (sub := sp_replace p).
  pose proof (dist_cons eqb sub u ra v rb) as Ecst. unfold cost in Ecst.
  pose proof (dist_nw eqb eqb_ok sub ra rb u v).
  pose proof (dist_lip_r eqb eqb_ok sub (u :: ra) rb v). pose proof (dist_lip_r eqb eqb_ok sub ra rb v).
  pose proof (dist_lip_l eqb eqb_ok sub ra (v :: rb) u). pose proof (dist_lip_l eqb eqb_ok sub ra rb u).
  split; [exact Ecst|]. split.
  { intros E. apply eqb_ok in E as ->. apply dist_eq. exact eqb_ok. }
  split; [assumption|]. split; [lia|]. split; [lia|]. split; [lia|]. split; [lia|].
  intros Hsub.
  pose proof (dist_parity eqb eqb_ok sub (u :: ra) (v :: rb) Hsub) as P1.
  pose proof (dist_parity eqb eqb_ok sub ra (v :: rb) Hsub) as P2.
  pose proof (dist_parity eqb eqb_ok sub (u :: ra) rb Hsub) as P3.
  pose proof (dist_parity eqb eqb_ok sub ra rb Hsub) as P4.
  cbn [length] in *. rewrite Nat.even_spec in *.
  destruct P1 as [q1 P1], P2 as [q2 P2], P3 as [q3 P3], P4 as [q4 P4]. lia.
Qed.

(** What the route choice implies. *)
Lemma route_facts x y : 1 <= x <= X -> 1 <= y <= Y ->
  exists u v, nth_error a (x - 1) = Some u /\ nth_error b (y - 1) = Some v /\
  match choose_route (sp_replace p) (pd x (y - 1)) (pd (x - 1) (y - 1)) (pd (x - 1) y) (pd x y) with
  | North => pd x y = pd x (y - 1) + 1
  | West => pd x y = pd (x - 1) y + 1 /\
            (sp_replace p = false -> pd (x - 1) y + 1 = pd (x - 1) (y - 1))
  | NorthWest => (u = v /\ pd x y = pd (x - 1) (y - 1)) \/
                 (sp_replace p = true /\ u <> v /\ pd x y = pd (x - 1) (y - 1) + 1)
  end.
Proof.
  intros Hx Hy. destruct (pd_facts x y Hx Hy) as (u & v & Hu & Hv & Hm & He & H1 & H2 & H3 & H4 & H5 & H6).
  exists u, v. split; [exact Hu|]. split; [exact Hv|].
  unfold choose_route.
  destruct (sp_replace p) eqn:Er.
  - rewrite orb_true_l, andb_true_r.
    destruct (Nat.leb_spec (pd (x - 1) (y - 1)) (pd x (y - 1)));
      destruct (Nat.leb_spec (pd (x - 1) (y - 1)) (pd (x - 1) y)); cbn [andb].
    1: { destruct (eqb u v) eqn:Ee; [left|right].
         - apply eqb_ok in Ee. split; [exact Ee|]. lia.
         - split; [reflexivity|]. split; [|lia]. intros Euv. apply eqb_ok in Euv. congruence. }
    all: destruct (Nat.leb_spec (pd (x - 1) y) (pd (x - 1) (y - 1)));
      destruct (Nat.leb_spec (pd (x - 1) y) (pd x (y - 1))); cbn [andb];
      destruct (eqb u v); try (split; [|discriminate]); lia.
  - specialize (H6 eq_refl). rewrite orb_false_l.
    destruct (Nat.leb_spec (pd (x - 1) (y - 1)) (pd x (y - 1)));
      destruct (Nat.leb_spec (pd (x - 1) (y - 1)) (pd (x - 1) y)); cbn [andb].
    1: destruct (Nat.eqb_spec (pd (x - 1) (y - 1)) (pd x y)).
    1: { left. split; [|lia]. destruct (eqb u v) eqn:Ee; [apply eqb_ok; exact Ee|lia]. }
    all: destruct (Nat.leb_spec (pd (x - 1) y) (pd (x - 1) (y - 1)));
      destruct (Nat.leb_spec (pd (x - 1) y) (pd x (y - 1))); cbn [andb];
      destruct (eqb u v); try (split; [|intros _]); lia.
Qed.

(** Invariant of the walk. *)
Definition reads (x y : nat) (m1 m2 : list marker) (c : nat) : Prop :=
  x <= X /\ y <= Y /\ pd X Y = pd x y + c /\
  offsets_ordered x m1 X /\ offsets_ordered y m2 Y /\
  plain_from m1 x (skipn x a) = plain_from m2 y (skipn y b) /\
  count_changed m1 x (skipn x a) <= c /\ count_changed m2 y (skipn y b) <= c /\
  c <= count_changed m1 x (skipn x a) + count_changed m2 y (skipn y b) /\
  (sp_replace p = false -> c = count_changed m1 x (skipn x a) + count_changed m2 y (skipn y b)).

Definition is_open (ms : list marker) : Prop := exists o ms', ms = mk_marker MEnd o :: ms'.
(** Pairing invariant (no-replace mode): closed lists are paired beyond x, an open one has its End
    beyond x; and when the first list is open the last step was west. *)
Definition half (x : nat) (ms : list marker) (len : nat) : Prop :=
  match ms with
  | mk_marker MEnd e :: ms' => x < e <= len /\ paired_from (S e) ms' len
  | _ => paired_from (S x) ms len
  end.
Definition pairing (x y : nat) (m1 m2 : list marker) : Prop :=
  half x m1 X /\ (0 < y -> half y m2 Y) /\ (y = 0 -> paired m2 Y /\ ~ is_open m1) /\
  (is_open m1 -> 0 < x /\ pd x y + 1 = pd x (y - 1)) /\
  (x = 0 -> ~ is_open m2).

Lemma paired_weaken lo lo' ms len : lo' <= lo -> paired_from lo ms len -> paired_from lo' ms len.
Proof.
  destruct ms as [|[[] s] [|[[] e] ms]]; cbn; try tauto. intros H (H1 & H2). split; [lia|exact H2].
Qed.

Lemma half_mark_end x ms len : half x ms len -> 1 <= x <= len ->
  forall v cur, v < cur -> half (x - 1) (mark ms v cur x) len /\ is_open (mark ms v cur x).
Proof.
  intros H Hx v cur Hv. unfold mark.
  assert (Nat.ltb v cur = true) as Elt by (apply Nat.ltb_lt; exact Hv).
  assert (Nat.eqb v cur = false) as Eeq by (apply Nat.eqb_neq; lia).
  destruct ms as [|[[] o] ms]; rewrite ?Elt, ?Eeq.
  - split; [cbn; lia|]. eexists _, _; reflexivity.
  - split; [|eexists _, _; reflexivity]. unfold half in *. split; [lia|exact H].
  - split; [|eexists _, _; reflexivity]. unfold half in *. destruct H. split; [lia|assumption].
Qed.
Lemma half_mark_keep x ms len : half x ms len -> 1 <= x <= len ->
  forall cur, paired_from x (mark ms cur cur x) len /\ ~ is_open (mark ms cur cur x).
Proof.
  intros H Hx cur. unfold mark. rewrite Nat.eqb_refl, Nat.ltb_irrefl.
  destruct ms as [|[[] o] ms].
  - split; [exact I|]. intros (o & m & E); discriminate.
  - split; [|intros (o' & m & E); discriminate]. unfold half in H. eapply paired_weaken; [|exact H]. lia.
  - split; [|intros (o' & m & E); discriminate]. unfold half in H.
    destruct H as [H1 H2]. cbn. repeat split; try lia. exact H2.
Qed.
Lemma not_open_half x ms len : 1 <= x -> paired_from x ms len -> ~ is_open ms -> half (x - 1) ms len.
Proof.
  intros Hx H Ho. unfold half. replace (S (x - 1)) with x by lia.
  destruct ms as [|[[] o] ms]; try exact H. exfalso; apply Ho; eexists _, _; reflexivity.
Qed.

Lemma reads_start0 ms pos k : changed (mk_marker MStart 0 :: ms) k = changed ms k /\
  (offsets_ordered 0 ms pos -> offsets_ordered 0 (mk_marker MStart 0 :: ms) pos).
Proof. split; [apply changed_cons_low; cbn; lia|]. cbn. intros H; split; [lia|exact H]. Qed.

Lemma walk_ok fuel : forall x y m1 m2 c,
  x + y < fuel -> reads x y m1 m2 c ->
  (sp_replace p = false -> pairing x y m1 m2) ->
  exists x' y' m1' m2' c', walk fuel (sp_replace p) t x y m1 m2 = Ok (x', y', m1', m2') /\
    reads x' y' m1' m2' c' /\ (x' = 0 \/ y' = 0) /\
    (sp_replace p = false -> pairing x' y' m1' m2').
Proof.
  induction fuel as [|fuel IH]; intros x y m1 m2 c Hfuel Hr Hpair; [lia|]. cbn [walk].
  destruct (Nat.ltb_spec 0 x) as [Hx0|Hx0]; [destruct (Nat.ltb_spec 0 y) as [Hy0|Hy0]|]; cbn [andb].
  2-3: (exists x, y, m1, m2, c; repeat split; try apply Hr; try apply Hpair; try assumption; try lia).
  destruct Hr as (Hx & Hy & Hd & Ho1 & Ho2 & Hpl & Hc1 & Hc2 & Hc3 & Hc4).
  rewrite !cell_get by lia. cbn [bind].
  destruct (route_facts x y) as (u & v & Hu & Hv & Hroute); [lia|lia|].
  destruct (choose_route _ _ _ _ _) eqn:Edir.
  - (* north *)
    destruct (mark_spec m2 (pd x (y - 1)) (pd x y) y Y Ho2) as (Q1 & Q2 & Q3); [lia|lia|].
    replace (Nat.ltb (pd x (y - 1)) (pd x y)) with true in Q3 by (symmetry; apply Nat.ltb_lt; lia).
    set (mm := mark m2 (pd x (y - 1)) (pd x y) y) in *.
    set (mm' := if Nat.eqb (y - 1) 0 then mk_marker MStart 0 :: mm else mm).
    assert (forall k, changed mm' k = changed mm k) as Q4.
    { intros k. unfold mm'. destruct (Nat.eqb (y - 1) 0); [apply (proj1 (reads_start0 mm 0 k))|reflexivity]. }
    assert (offsets_ordered (y - 1) mm' Y) as Q5.
    { unfold mm'. destruct (Nat.eqb_spec (y - 1) 0) as [E|E].
      - rewrite E. apply reads_start0; [exact 0|]. eapply offsets_weaken; [|exact Q1]. lia.
      - eapply offsets_weaken; [|exact Q1]. lia. }
    destruct (plain_front m2 mm' y b v) as [P1 P2]; [lia|exact Hv|intros k Hk; rewrite Q4; auto|].
    rewrite Q4, Q3 in P1, P2. cbn [app] in P1.
    apply (IH x (y - 1) m1 mm' (c + 1)); [lia| |].
    + unfold reads. rewrite P1, P2. repeat split; try assumption; try lia.
      all: intros Hs; specialize (Hc4 Hs); lia.
    + intros Hs. specialize (Hpair Hs). destruct Hpair as (J1 & J2 & J3 & J4 & J5).
      assert (~ is_open m1) as Hno by (intros Hop; destruct (J4 Hop); lia).
      specialize (J2 Hy0).
      destruct (half_mark_end y m2 Y J2) with (v := pd x (y - 1)) (cur := pd x y) as [K1 K2]; [lia|lia|]. fold mm in K1, K2.
      split; [exact J1|]. split; [|split; [|split]].
      * intros Hy1. unfold mm'. replace (Nat.eqb (y - 1) 0) with false by (symmetry; apply Nat.eqb_neq; lia).
        exact K1.
      * intros Hy1. split; [|exact Hno]. unfold mm'. rewrite Hy1. cbn [Nat.eqb].
        destruct K2 as (o & rest & E). rewrite E in *. unfold half in K1. unfold paired. cbn.
        repeat split; try lia. apply K1.
      * intros Hop. contradiction.
      * intros Hx1; lia.
  - (* northwest *)
    destruct (mark_spec m2 (pd (x - 1) (y - 1)) (pd x y) y Y Ho2) as (Q1 & Q2 & Q3); [lia|lia|].
    destruct (mark_spec m1 (pd (x - 1) (y - 1)) (pd x y) x X Ho1) as (R1 & R2 & R3); [lia|lia|].
    set (mm2 := mark m2 _ _ _) in *. set (mm1 := mark m1 _ _ _) in *.
    destruct (plain_front m2 mm2 y b v) as [P1 P2]; [lia|exact Hv|exact Q2|].
    destruct (plain_front m1 mm1 x a u) as [P3 P4]; [lia|exact Hu|exact R2|].
    destruct Hroute as [[Euv Hcur]|(Hrep & Hne & Hcur)].
    + replace (Nat.ltb (pd (x - 1) (y - 1)) (pd x y)) with false in Q3, R3 by (symmetry; apply Nat.ltb_ge; lia).
      rewrite Q3 in P1, P2. rewrite R3 in P3, P4. cbn [app] in P1, P3.
      apply (IH (x - 1) (y - 1) mm1 mm2 c); [lia| |].
      * unfold reads. rewrite P1, P2, P3, P4. repeat split; try assumption; try lia.
        -- eapply offsets_weaken; [|exact R1]; lia.
        -- eapply offsets_weaken; [|exact Q1]; lia.
        -- congruence.
      * intros Hs. specialize (Hpair Hs). destruct Hpair as (J1 & J2 & J3 & J4 & J5). specialize (J2 Hy0).
        destruct (half_mark_keep x m1 X J1) with (cur := pd x y) as [K1 K2]; [lia|].
        destruct (half_mark_keep y m2 Y J2) with (cur := pd x y) as [K3 K4]; [lia|].
        assert (mm1 = mark m1 (pd x y) (pd x y) x) as E1 by (unfold mm1; rewrite Hcur; reflexivity).
        assert (mm2 = mark m2 (pd x y) (pd x y) y) as E2 by (unfold mm2; rewrite Hcur; reflexivity).
        rewrite <- E1 in K1, K2. rewrite <- E2 in K3, K4.
        split; [|split; [|split; [|split]]].
        -- apply not_open_half; [lia|exact K1|exact K2].
        -- intros _. apply not_open_half; [lia|exact K3|exact K4].
        -- intros _. split; [|exact K2]. eapply paired_weaken; [|exact K3]. lia.
        -- intros Hop; contradiction.
        -- intros _. exact K4.
    + replace (Nat.ltb (pd (x - 1) (y - 1)) (pd x y)) with true in Q3, R3 by (symmetry; apply Nat.ltb_lt; lia).
      rewrite Q3 in P1, P2. rewrite R3 in P3, P4. cbn [app] in P1, P3.
      apply (IH (x - 1) (y - 1) mm1 mm2 (c + 1)); [lia| |intros Hs; congruence].
      unfold reads. rewrite P1, P2, P3, P4. repeat split; try assumption; try lia.
      * eapply offsets_weaken; [|exact R1]; lia.
      * eapply offsets_weaken; [|exact Q1]; lia.
      * congruence.
  - (* west *)
    destruct Hroute as [Hcur Hwest].
    destruct (mark_spec m1 (pd (x - 1) y) (pd x y) x X Ho1) as (Q1 & Q2 & Q3); [lia|lia|].
    replace (Nat.ltb (pd (x - 1) y) (pd x y)) with true in Q3 by (symmetry; apply Nat.ltb_lt; lia).
    set (mm := mark m1 (pd (x - 1) y) (pd x y) x) in *.
    set (mm' := if Nat.eqb (x - 1) 0 then mk_marker MStart 0 :: mm else mm).
    assert (forall k, changed mm' k = changed mm k) as Q4.
    { intros k. unfold mm'. destruct (Nat.eqb (x - 1) 0); [apply (proj1 (reads_start0 mm 0 k))|reflexivity]. }
    assert (offsets_ordered (x - 1) mm' X) as Q5.
    { unfold mm'. destruct (Nat.eqb_spec (x - 1) 0) as [E|E].
      - rewrite E. apply reads_start0; [exact 0|]. eapply offsets_weaken; [|exact Q1]. lia.
      - eapply offsets_weaken; [|exact Q1]. lia. }
    destruct (plain_front m1 mm' x a u) as [P1 P2]; [lia|exact Hu|intros k Hk; rewrite Q4; auto|].
    rewrite Q4, Q3 in P1, P2. cbn [app] in P1.
    apply (IH (x - 1) y mm' m2 (c + 1)); [lia| |].
    + unfold reads. rewrite P1, P2. repeat split; try assumption; try lia.
      all: intros Hs; specialize (Hc4 Hs); lia.
    + intros Hs. specialize (Hpair Hs). specialize (Hwest Hs). destruct Hpair as (J1 & J2 & J3 & J4 & J5).
      assert (0 < x - 1) as Hx1.
      { destruct (Nat.eq_dec (x - 1) 0) as [E|E]; [|lia]. exfalso. rewrite E in Hwest.
        rewrite !(pd_x0 eqb a b p) in Hwest by lia. lia. }
      destruct (half_mark_end x m1 X J1) with (v := pd (x - 1) y) (cur := pd x y) as [K1 K2]; [lia|lia|]. fold mm in K1, K2.
      assert (mm' = mm) as -> by (unfold mm'; replace (Nat.eqb (x - 1) 0) with false by (symmetry; apply Nat.eqb_neq; lia); reflexivity).
      split; [exact K1|]. split; [exact J2|]. split; [intros; lia|]. split; [|intros; lia].
      intros _. split; [exact Hx1|exact Hwest].
Qed.

(** The final lists. *)
Lemma changed_all ms x k : k < x -> changed (mk_marker MStart 0 :: mk_marker MEnd x :: ms) k = true.
Proof.
  intros H. rewrite changed_cons_low by (cbn; lia). rewrite changed_cons_high by (cbn; lia). reflexivity.
Qed.
Lemma changed_beyond ms x k : x <= k ->
  changed (mk_marker MStart 0 :: mk_marker MEnd x :: ms) k = changed ms k.
Proof. intros H. rewrite !changed_cons_low by (cbn; lia). reflexivity. Qed.

Lemma plain_all {B} ms n pos (l : list B) :
  (forall k, pos <= k < pos + n -> changed ms k = true) -> n <= length l ->
  plain_from ms pos l = plain_from ms (pos + n) (skipn n l) /\
  count_changed ms pos l = n + count_changed ms (pos + n) (skipn n l).
Proof.
  revert pos l; induction n as [|n IH]; intros pos l H Hl.
  - rewrite Nat.add_0_r. split; reflexivity.
  - destruct l as [|z l]; cbn in Hl; [lia|]. cbn [plain_from count_changed skipn].
    rewrite H by lia. destruct (IH (S pos) l) as [E1 E2]; [intros; apply H; lia|lia|].
    replace (pos + S n) with (S pos + n) by lia. rewrite E1, E2. split; reflexivity.
Qed.

Lemma finish {B} (l : list B) x ms :
  x <= length l -> offsets_ordered x ms (length l) ->
  let ms' := if Nat.eqb x 0 then ms else mk_marker MStart 0 :: mk_marker MEnd x :: ms in
  offsets_ordered 0 ms' (length l) /\
  plain_from ms' 0 l = plain_from ms x (skipn x l) /\
  count_changed ms' 0 l = x + count_changed ms x (skipn x l).
Proof.
  intros Hx Ho ms'. unfold ms'. destruct (Nat.eqb_spec x 0) as [->|E].
  - repeat split; try assumption; try reflexivity.
  - split; [cbn; repeat split; try lia; exact Ho|].
    destruct (plain_all (mk_marker MStart 0 :: mk_marker MEnd x :: ms) x 0 l) as [E1 E2].
    { intros k Hk. apply changed_all. lia. } { exact Hx. }
    rewrite E1, E2. cbn [Nat.add].
    rewrite (plain_ext _ ms) by (intros; apply changed_beyond; assumption).
    rewrite (count_ext _ ms) by (intros; apply changed_beyond; assumption). split; reflexivity.
Qed.

Lemma finish_paired (l : nat) x ms : x <= l ->
  (0 < x -> half x ms l) -> ~ is_open ms -> (x = 0 -> paired ms l) ->
  paired (if Nat.eqb x 0 then ms else mk_marker MStart 0 :: mk_marker MEnd x :: ms) l.
Proof.
  intros Hx Hh Ho H0. destruct (Nat.eqb_spec x 0) as [E|E]; [auto|].
  assert (0 < x) as Hx0 by lia. specialize (Hh Hx0).
  unfold half in Hh. unfold paired. cbn [paired_from]. repeat split; try lia.
  destruct ms as [|[[] o] ms]; try exact Hh. exfalso; apply Ho; eexists _, _; reflexivity.
Qed.

Lemma create_markers_fine : sp_fine p (pd X Y) = true ->
  exists m1 m2, create_markers t p [] [] = Ok (m1, m2) /\
    offsets_ordered 0 m1 X /\ offsets_ordered 0 m2 Y /\
    plain_text m1 a = plain_text m2 b /\
    changed_count m1 a <= pd X Y /\ changed_count m2 b <= pd X Y /\
    pd X Y <= changed_count m1 a + changed_count m2 b /\
    (sp_replace p = false -> pd X Y = changed_count m1 a + changed_count m2 b /\
                             paired m1 X /\ paired m2 Y).
Proof.
  intros Hfine. unfold create_markers. destruct Hf as [(Hw & Hh & _) _]. rewrite Hw, Hh.
  replace (N.to_nat (N.of_nat (length a + 1)) - 1) with X by lia.
  replace (N.to_nat (N.of_nat (length b + 1)) - 1) with Y by lia.
  rewrite cell_get by lia. cbn [bind]. rewrite Hfine. cbn [negb].
  destruct (walk_ok (S (X + Y)) X Y [] [] 0) as (x & y & m1 & m2 & c & -> & Hr & Hend & Hpair).
  { lia. }
  { unfold reads. rewrite !skipn_all. cbn. repeat split; try lia. }
  { intros _. assert (~ is_open []) as Hno by (intros (o & m & E); discriminate).
    unfold pairing. split; [exact I|]. split; [intros _; exact I|]. split; [intros _; split; [exact I|exact Hno]|].
    split; [intros Hop; contradiction|intros _; exact Hno]. }
  cbn [bind]. destruct Hr as (Hx & Hy & Hd & Ho1 & Ho2 & Hpl & Hc1 & Hc2 & Hc3 & Hc4).
  destruct (finish a x m1 Hx Ho1) as (F1 & F2 & F3). destruct (finish b y m2 Hy Ho2) as (G1 & G2 & G3).
  eexists _, _; split; [reflexivity|].
  assert (pd x y = x + y) as Epd.
  { destruct Hend as [E|E]; rewrite E; [rewrite pd_x0 by lia|rewrite pd_0y by lia]; lia. }
  unfold plain_text, changed_count. rewrite F2, F3, G2, G3.
  split; [exact F1|]. split; [exact G1|]. split; [exact Hpl|].
  split; [lia|]. split; [lia|]. split; [lia|].
  intros Hs. specialize (Hc4 Hs). specialize (Hpair Hs). destruct Hpair as (J1 & J2 & J3 & J4 & J5).
  split; [lia|]. split.
  - assert (~ is_open m1) as Hno.
    { destruct Hend as [E|E]; [|apply J3; exact E]. intros Hop. destruct (J4 Hop). lia. }
    apply finish_paired; try assumption; [intros _; exact J1|].
    intros E. subst x. unfold half in J1. destruct m1 as [|[[] o] m1]; [exact I| |].
    + eapply (paired_weaken 1); [lia|exact J1].
    + exfalso; apply Hno; eexists _, _; reflexivity.
  - apply finish_paired; try assumption.
    + destruct Hend as [E|E]; [apply J5; exact E|].
      destruct (J3 E) as [K _]. intros (o & m & E'). rewrite E' in K. exact K.
    + intros E. apply J3. exact E.
Qed.

Lemma create_markers_coarse : sp_fine p (pd X Y) = false ->
  create_markers t p [] [] =
    Ok ([mk_marker MStart 0; mk_marker MEnd X], [mk_marker MStart 0; mk_marker MEnd Y]).
Proof.
  intros Hfine. unfold create_markers. destruct Hf as [(Hw & Hh & _) _]. rewrite Hw, Hh.
  replace (N.to_nat (N.of_nat (length a + 1)) - 1) with X by lia.
  replace (N.to_nat (N.of_nat (length b + 1)) - 1) with Y by lia.
  rewrite cell_get by lia. cbn [bind]. rewrite Hfine. reflexivity.
Qed.
End Walk.
