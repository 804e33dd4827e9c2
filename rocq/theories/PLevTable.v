(** The table is filled with edit distances. *)
From Coq Require Import FMapPositive FMapFacts ZifyBool ZifyNat ZifyN.
From Verif Require Import Base Lev SpecEdit.
Ltac Zify.zify_post_hook ::= Z.div_mod_to_equations.

(** * Recursive distance *)
Section Dist.
Context {A : Type} (eqb : A -> A -> bool) (eqb_ok : forall x y, eqb x y = true <-> x = y).
Variable (sub : bool).
Definition cost (x y : A) := if eqb x y then 0 else if sub then 1 else 2.
Fixpoint dist (a : list A) : list A -> nat :=
  match a with
  | [] => fun b => length b
  | x :: a' =>
      let fix go (b : list A) : nat :=
        match b with
        | [] => S (length a')
        | y :: b' => Nat.min (go b' + 1) (Nat.min (dist a' b + 1) (dist a' b' + cost x y))
        end in go
  end.
Lemma dist_nil_r a : dist a [] = length a.
Proof. destruct a; reflexivity. Qed.
Lemma dist_nil_l b : dist [] b = length b.
Proof. reflexivity. Qed.
Lemma dist_cons x a y b :
  dist (x :: a) (y :: b) =
  Nat.min (dist (x :: a) b + 1) (Nat.min (dist a (y :: b) + 1) (dist a b + cost x y)).
Proof. reflexivity. Qed.

Lemma edit_dels (a : list A) : edit sub a [] (length a).
Proof. induction a; cbn; constructor; assumption. Qed.
Lemma edit_inss (b : list A) : edit sub [] b (length b).
Proof. induction b; cbn; constructor; assumption. Qed.

Lemma dist_edit a b : edit sub a b (dist a b).
Proof.
  revert b; induction a as [|x a IHa]; intros b.
  - apply edit_inss.
  - induction b as [|y b IHb].
    + apply edit_dels.
    + rewrite dist_cons.
      destruct (Nat.min_spec (dist (x :: a) b + 1) (Nat.min (dist a (y :: b) + 1) (dist a b + cost x y)))
        as [[_ ->]|[_ ->]].
      * rewrite Nat.add_1_r. apply edit_ins. exact IHb.
      * destruct (Nat.min_spec (dist a (y :: b) + 1) (dist a b + cost x y)) as [[_ ->]|[_ ->]].
        -- rewrite Nat.add_1_r. apply edit_del. apply IHa.
        -- unfold cost. destruct (eqb x y) eqn:E.
           ++ apply eqb_ok in E as ->. rewrite Nat.add_0_r. apply edit_keep. apply IHa.
           ++ destruct sub eqn:Es.
              ** rewrite Nat.add_1_r. apply edit_sub; [reflexivity|apply IHa].
              ** replace (dist a b + 2) with (S (S (dist a b))) by lia.
                 apply edit_del, edit_ins. apply IHa.
Qed.

(** Neighbouring distances. *)
Lemma dist_lip_r a b y : dist a b <= dist a (y :: b) + 1 /\ dist a (y :: b) <= dist a b + 1.
Proof.
  revert b y; induction a as [|x a IHa]; intros b y.
  - cbn; lia.
  - revert y; induction b as [|y' b IHb]; intros y.
    + rewrite dist_cons, !dist_nil_r. cbn [length].
      destruct (IHa [] y) as [H1 H2]. rewrite dist_nil_r in *.
      unfold cost. destruct (eqb x y), sub; cbn [length] in *; lia.
    + rewrite (dist_cons x a y).
      split; [|lia].
      destruct (IHa (y' :: b) y) as [H1 H2]. destruct (IHa b y') as [H3 H4].
      rewrite (dist_cons x a y' b) in *. unfold cost.
      destruct (eqb x y), (eqb x y'), sub; lia.
Qed.
Lemma dist_lip_l a b x : dist a b <= dist (x :: a) b + 1 /\ dist (x :: a) b <= dist a b + 1.
Proof.
  destruct b as [|y b].
  - rewrite !dist_nil_r. cbn; lia.
  - revert y; induction b as [|y' b IHb]; intros y.
    + rewrite dist_cons. rewrite !dist_nil_r. cbn [length].
      pose proof (dist_lip_r a [] y). rewrite dist_nil_r in *.
      unfold cost. destruct (eqb x y), sub; lia.
    + rewrite dist_cons. pose proof (dist_lip_r a (y' :: b) y). specialize (IHb y').
      unfold cost. destruct (eqb x y), sub; lia.
Qed.
Lemma dist_nw a b x y : dist a b <= dist (x :: a) (y :: b).
Proof.
  rewrite dist_cons.
  pose proof (dist_lip_r a b y). pose proof (dist_lip_l a b x).
  unfold cost; destruct (eqb x y), sub; lia.
Qed.
Lemma dist_eq x a b : dist (x :: a) (x :: b) = dist a b.
Proof.
  pose proof (dist_nw a b x x). rewrite dist_cons in *.
  assert (cost x x = 0) as H1 by (unfold cost; destruct (eqb x x) eqn:E; [reflexivity|];
     assert (eqb x x = true) by (apply eqb_ok; reflexivity); congruence).
  rewrite H1 in *. lia.
Qed.
Lemma dist_parity a b : sub = false -> Nat.even (dist a b + length a + length b) = true.
Proof.
  intros Hs. revert b; induction a as [|x a IHa]; intros b.
  - cbn. rewrite Nat.add_0_r. rewrite Nat.even_add. destruct (Nat.even (length b)); reflexivity.
  - induction b as [|y b IHb].
    + rewrite dist_nil_r. cbn [length]. rewrite Nat.add_0_r, Nat.even_add.
      destruct (Nat.even (S (length a))); reflexivity.
    + rewrite dist_cons. specialize (IHa b) as Ha. specialize (IHa (y :: b)) as Ha'.
      unfold cost. rewrite Hs. cbn [length] in *.
      rewrite !Nat.even_spec in *. destruct IHb as [p Hp], Ha as [q Hq], Ha' as [r Hr].
      pose proof (dist_lip_r a b y). pose proof (dist_lip_l a b x).
      destruct (eqb x y); match goal with |- Nat.Even (?m + _ + _) => 
        assert (m = dist (x::a) b + 1 \/ m = dist a (y::b) + 1 \/ m = dist a b + 0 \/ m = dist a b + 2) as [E|[E|[E|E]]] by lia; rewrite E end.
      all: match goal with |- Nat.Even ?z => exists (Nat.div2 z); pose proof (Nat.div2_odd z) as Hz; destruct (Nat.odd z) eqn:Eo; [|cbn [Nat.b2n] in Hz; lia]; apply Nat.odd_spec in Eo; destruct Eo; lia end.
Qed.

(** Lower bound: no edit script is shorter. *)
Lemma dist_min a b k : edit sub a b k -> dist a b <= k.
Proof.
  induction 1 as [|x a b k H IH|x a b k H IH|y a b k H IH|x y a b k Hs H IH].
  - cbn; lia.
  - rewrite dist_eq. exact IH.
  - pose proof (dist_lip_l a b x). lia.
  - pose proof (dist_lip_r a b y). lia.
  - rewrite dist_cons. unfold cost. rewrite Hs. destruct (eqb x y); lia.
Qed.
Lemma dist_is_distance a b : is_distance sub a b (dist a b).
Proof. split; [apply dist_edit | apply dist_min]. Qed.
End Dist.

Lemma edit_app {A} sub (a b : list A) k a' b' k' :
  edit sub a b k -> edit sub a' b' k' -> edit sub (a ++ a') (b ++ b') (k + k').
Proof.
  induction 1 as [|x a b k H IH|x a b k H IH|y a b k H IH|x y a b k Hs H IH]; intros H'; cbn.
  - exact H'.
  - apply edit_keep; auto.
  - apply edit_del; auto.
  - apply edit_ins; auto.
  - apply edit_sub; auto.
Qed.
Lemma edit_rev {A} sub (a b : list A) k : edit sub a b k -> edit sub (rev a) (rev b) k.
Proof.
  induction 1 as [|x a b k H IH|x a b k H IH|y a b k H IH|x y a b k Hs H IH]; cbn.
  - constructor.
  - replace k with (k + 0) by lia. apply edit_app; [exact IH|]. repeat constructor.
  - replace (S k) with (k + 1) by lia.
    replace (rev b) with (rev b ++ []) by apply app_nil_r.
    apply edit_app; [exact IH|]. repeat constructor.
  - replace (S k) with (k + 1) by lia.
    replace (rev a) with (rev a ++ []) by apply app_nil_r.
    apply edit_app; [exact IH|]. repeat constructor.
  - replace (S k) with (k + 1) by lia. apply edit_app; [exact IH|].
    apply edit_sub; [exact Hs|constructor].
Qed.
Lemma is_distance_rev {A} sub (a b : list A) d :
  is_distance sub (rev a) (rev b) d -> is_distance sub a b d.
Proof.
  intros [H1 H2]. split.
  - apply edit_rev in H1. rewrite !rev_involutive in H1. exact H1.
  - intros k Hk. apply H2, edit_rev, Hk.
Qed.

(** * The flat table *)
Lemma succ_pos_inj i j : N.succ_pos i = N.succ_pos j -> i = j.
Proof.
  intros H. apply (f_equal Npos) in H. rewrite !N.succ_pos_spec in H. lia.
Qed.

(** A table of width [m] and height [n] whose indices do not wrap. *)
Definition sized (t : table) (m n : nat) : Prop :=
  t_w t = N.of_nat m /\ t_h t = N.of_nat n /\
  (N.of_nat m * N.of_nat n <= t_size t)%N /\ (N.of_nat m * N.of_nat n <= 16777216)%N.

Lemma index_ok t m n x y : sized t m n -> x < m -> y < n ->
  cell_index t x y = (N.of_nat y * N.of_nat m + N.of_nat x)%N /\
  (N.of_nat y * N.of_nat m + N.of_nat x < t_size t)%N.
Proof.
  intros (Hw & Hh & Hs & Hl) Hx Hy. unfold cell_index, u32. rewrite Hw.
  assert ((N.of_nat y + 1) * N.of_nat m <= N.of_nat m * N.of_nat n)%N as H by nia.
  assert (N.of_nat y * N.of_nat m + N.of_nat x < N.of_nat m * N.of_nat n)%N by nia.
  rewrite (N.mod_small (N.of_nat y * N.of_nat m)) by lia.
  rewrite N.mod_small by lia. split; lia.
Qed.

Definition cell (t : table) (x y : nat) : nat :=
  match PositiveMap.find (N.succ_pos (cell_index t x y)) (t_cells t) with Some v => v | None => 0 end.

Lemma get_ok t m n x y : sized t m n -> x < m -> y < n -> get_content t x y = Ok (cell t x y).
Proof.
  intros Hs Hx Hy. destruct (index_ok t m n x y Hs Hx Hy) as [H1 H2].
  unfold get_content. rewrite H1. unfold cell. rewrite H1.
  apply N.ltb_lt in H2. rewrite H2. reflexivity.
Qed.

Definition same_frame (t t' : table) : Prop := t_w t = t_w t' /\ t_h t = t_h t' /\ t_size t = t_size t'.

Lemma set_ok t m n x y v : sized t m n -> x < m -> y < n ->
  exists t', set_content t x y v = Ok t' /\ sized t' m n /\
    (forall x' y', x' < m -> y' < n ->
       cell t' x' y' = if (Nat.eqb x' x && Nat.eqb y' y)%bool then v else cell t x' y').
Proof.
  intros Hs Hx Hy. destruct (index_ok t m n x y Hs Hx Hy) as [H1 H2].
  unfold set_content. rewrite H1. apply N.ltb_lt in H2. rewrite H2.
  eexists; split; [reflexivity|]. split.
  - destruct Hs as (? & ? & ? & ?). repeat split; assumption.
  - intros x' y' Hx' Hy'.
    set (t' := mk_table _ _ _ _).
    assert (sized t' m n) as Hs' by (destruct Hs as (? & ? & ? & ?); repeat split; assumption).
    destruct (index_ok t' m n x' y' Hs' Hx' Hy') as [H1' _].
    destruct (index_ok t m n x' y' Hs Hx' Hy') as [H1'' _].
    unfold cell. rewrite H1', H1''. unfold t'. cbn [t_cells].
    destruct (Nat.eqb_spec x' x) as [->|Ex]; [destruct (Nat.eqb_spec y' y) as [->|Ey]|]; cbn [andb].
    + rewrite PositiveMap.gss. reflexivity.
    + rewrite PositiveMap.gso; [reflexivity|]. intros E. apply succ_pos_inj in E.
      apply Ey. nia.
    + rewrite PositiveMap.gso; [reflexivity|]. intros E. apply succ_pos_inj in E.
      apply Ex. destruct (Nat.lt_trichotomy y' y) as [L|[->|L]]; [nia|lia|nia].
Qed.

(** Loops with an invariant indexed by the counter. *)
Lemma for_seq_inv {S} (Inv : nat -> S -> Prop) (body : nat -> S -> res S) n : forall k s,
  Inv k s ->
  (forall i s, k <= i < k + n -> Inv i s -> exists s', body i s = Ok s' /\ Inv (Datatypes.S i) s') ->
  exists s', for_each (seq k n) body s = Ok s' /\ Inv (k + n) s'.
Proof.
  induction n as [|n IH]; intros k s H0 Hstep; cbn [seq for_each].
  - exists s. rewrite Nat.add_0_r. auto.
  - destruct (Hstep k s) as (s1 & -> & H1); [lia|exact H0|]. cbn [bind].
    destruct (IH (Datatypes.S k) s1 H1) as (s2 & -> & H2).
    + intros i s' Hi. apply Hstep. lia.
    + exists s2. split; [reflexivity|]. replace (k + Datatypes.S n) with (Datatypes.S k + n) by lia. exact H2.
Qed.

Lemma rev_firstn_S {B} (l : list B) i : i < length l ->
  exists x, nth_error l i = Some x /\ rev (firstn (S i) l) = x :: rev (firstn i l).
Proof.
  revert l; induction i as [|i IH]; intros [|z l] Hi; cbn in Hi; try lia.
  - exists z. auto.
  - destruct (IH l) as (x & Hx & E); [lia|]. exists x. split; [exact Hx|].
    rewrite (firstn_cons (S i)). cbn [rev]. rewrite E. reflexivity.
Qed.

(** * createTable *)
Section Fill.
Context {A : Type} (eqb : A -> A -> bool) (eqb_ok : forall x y, eqb x y = true <-> x = y).
Variables (a b : list A) (p : seqpair).
(** The pair [p] presents the lists [a] and [b]. *)
Definition presents : Prop :=
  sp_m p = length a + 1 /\ sp_n p = length b + 1 /\
  forall i j x y, nth_error a i = Some x -> nth_error b j = Some y ->
    sp_equal p (S i) (S j) = Ok (eqb x y).
Hypothesis Hp : presents.
Let m := length a + 1.
Let n := length b + 1.

(** Distance of the prefixes of lengths x and y. *)
Definition pd (x y : nat) : nat :=
  dist eqb (sp_replace p) (rev (firstn x a)) (rev (firstn y b)).

Lemma pd_x0 y : y < n -> pd 0 y = y.
Proof. intros H. unfold pd. cbn [firstn rev]. rewrite dist_nil_l, rev_length, firstn_length. unfold n in H. lia. Qed.
Lemma pd_0y x : x < m -> pd x 0 = x.
Proof. intros H. unfold pd. cbn [firstn rev]. rewrite dist_nil_r, rev_length, firstn_length. unfold m in H. lia. Qed.
Lemma pd_step x y : x < length a -> y < length b ->
  exists e, sp_equal p (S x) (S y) = Ok e /\
  pd (S x) (S y) = Nat.min (pd (S x) y + 1) (Nat.min (pd x (S y) + 1) (pd x y + (if e then 0 else if sp_replace p then 1 else 2))).
Proof.
  intros Hx Hy. destruct (rev_firstn_S a x Hx) as (u & Hu & Eu). destruct (rev_firstn_S b y Hy) as (v & Hv & Ev).
  exists (eqb u v). destruct Hp as (_ & _ & He). split; [apply He; assumption|].
  unfold pd. rewrite Eu, Ev. rewrite dist_cons. reflexivity.
Qed.

Definition filled (t : table) : Prop :=
  sized t m n /\ forall x y, x < m -> y < n -> cell t x y = pd x y.

Definition rows_done (j i : nat) (t : table) : Prop :=
  sized t m n /\
  forall x y, x < m -> y < n -> (x = 0 \/ y = 0 \/ y < j \/ (y = j /\ x < i)) -> cell t x y = pd x y.

Lemma fill_cell_ok j i t : 1 <= i < m -> 1 <= j < n -> rows_done j i t ->
  exists t', fill_cell p j i t = Ok t' /\ rows_done j (S i) t'.
Proof.
  intros Hi Hj [Hs Hc]. unfold m, n in Hi, Hj.
  destruct i as [|i]; [lia|]. destruct j as [|j]; [lia|].
  destruct (pd_step i j) as (e & He & Hpd); [lia|lia|].
  unfold fill_cell. rewrite He. cbn [bind].
  replace (S j - 1) with j by lia. replace (S i - 1) with i by lia.
  rewrite (get_ok t m n) by (assumption || (unfold m, n; lia)). cbn [bind].
  rewrite (get_ok t m n) by (assumption || (unfold m, n; lia)). cbn [bind].
  rewrite (get_ok t m n) by (assumption || (unfold m, n; lia)). cbn [bind].
  rewrite (Hc (S i) j), (Hc i (S j)), (Hc i j) by (unfold m, n; lia).
  rewrite <- Hpd.
  destruct (set_ok t m n (S i) (S j) (pd (S i) (S j))) as (t' & E & Hs' & Hc');
    [assumption|unfold m; lia|unfold n; lia|].
  exists t'. split; [exact E|]. split; [exact Hs'|].
  intros x y Hx Hy Hd. rewrite Hc' by assumption.
  destruct (Nat.eqb_spec x (S i)) as [->|Ex]; [destruct (Nat.eqb_spec y (S j)) as [->|Ey]|]; cbn [andb].
  - reflexivity.
  - apply Hc; try assumption. lia.
  - apply Hc; try assumption. lia.
Qed.

Lemma fill_table_ok t : sized t m n -> exists t', fill_table p t = Ok t' /\ filled t'.
Proof.
  intros Hs. unfold fill_table. destruct Hp as (Em & En & _). rewrite Em, En. fold m n.
  destruct (for_seq_inv (fun k t => sized t m n /\ forall x, x < k -> x < m -> cell t x 0 = x)
              (fun i t => set_content t i 0 i) m 0 t) as (t1 & -> & Hs1 & H1).
  { split; [exact Hs|]. intros; lia. }
  { intros i s Hi [Hss Hcs].
    destruct (set_ok s m n i 0 i) as (s' & E & Hs' & Hc'); [assumption|lia|unfold n; lia|].
    exists s'. split; [exact E|]. split; [exact Hs'|]. intros x Hx Hm.
    rewrite Hc' by (try assumption; unfold n; lia).
    destruct (Nat.eqb_spec x i) as [->|Ex]; cbn; [reflexivity|]. apply Hcs; lia. }
  cbn [bind].
  destruct (for_seq_inv (fun k t => sized t m n /\ (forall x, x < m -> cell t x 0 = x) /\
                                    forall y, y < k -> y < n -> cell t 0 y = y)
              (fun j t => set_content t 0 j j) n 0 t1) as (t2 & -> & Hs2 & H2 & H3).
  { split; [exact Hs1|]. split; [intros x Hx; apply H1; lia|]. intros; lia. }
  { intros j s Hj (Hss & Hr & Hcs).
    destruct (set_ok s m n 0 j j) as (s' & E & Hs' & Hc'); [assumption|unfold m; lia|lia|].
    exists s'. split; [exact E|]. split; [exact Hs'|]. split.
    - intros x Hx. rewrite Hc' by (try assumption; unfold n; lia).
      destruct (Nat.eqb_spec x 0) as [->|Ex]; cbn [andb].
      + destruct (Nat.eqb_spec 0 j) as [<-|]; [reflexivity|]. apply Hr; lia.
      + apply Hr; lia.
    - intros y Hy Hyn. rewrite Hc' by (try assumption; unfold m; lia).
      destruct (Nat.eqb_spec y j) as [->|Ey]; cbn; [reflexivity|]. apply Hcs; lia. }
  cbn [bind].
  destruct (for_seq_inv (fun j t => rows_done j 1 t)
              (fun j t => for_each (seq 1 (m - 1)) (fun i t => fill_cell p j i t) t) (n - 1) 1 t2)
    as (t3 & E3 & Hs3 & H4).
  { split; [exact Hs2|]. intros x y Hx Hy Hd.
    assert (x = 0 \/ y = 0) as [ -> | -> ] by lia.
    - rewrite pd_x0 by assumption. apply H3; lia.
    - rewrite pd_0y by assumption. apply H2; lia. }
  { intros j s Hj Hinv.
    destruct (for_seq_inv (fun i t => rows_done j i t) (fun i t => fill_cell p j i t) (m - 1) 1 s) as (s' & E & Hs' & Hd).
    - exact Hinv.
    - intros i s0 Hi H0. apply fill_cell_ok; [lia|lia|exact H0].
    - exists s'. split; [exact E|]. split; [exact Hs'|]. intros x y Hx Hy Hd'. apply Hd; try assumption.
      assert (m >= 1) by (unfold m; lia). lia. }
  exists t3. split; [exact E3|]. split; [exact Hs3|].
  intros x y Hx Hy. apply H4; try assumption. lia.
Qed.
End Fill.

(** The [presents] instances. *)
Lemma chr_eqb_ok x y : chr_eqb x y = true <-> x = y.
Proof. apply N.eqb_eq. Qed.
Lemma str_eqb_ok x y : str_eqb x y = true <-> x = y.
Proof.
  revert y; induction x as [|c x IH]; intros [|d y]; cbn; try (split; congruence).
  rewrite andb_true_iff, N.eqb_eq, IH. split; [intros (H1 & H2); subst; reflexivity|intros E; inversion E; auto].
Qed.
Lemma string_pair_presents a b : presents chr_eqb a b (string_pair a b).
Proof.
  repeat split; cbn; try lia. intros i j x y Hx Hy. rewrite Hx, Hy. reflexivity.
Qed.
Lemma lines_pair_presents h a b : presents str_eqb a b (lines_pair h a b).
Proof.
  repeat split; cbn; try lia. intros i j x y Hx Hy.
  rewrite (map_nth_error h i a Hx), (map_nth_error h j b Hy).
  rewrite !Nat.sub_0_r, Hx, Hy.
  destruct (N.eqb_spec (h x) (h y)) as [E|E]; cbn [negb]; [reflexivity|].
  destruct (str_eqb x y) eqn:Exy; [|reflexivity]. apply str_eqb_ok in Exy. congruence.
Qed.

(** setSize. *)
Lemma set_size_small t m n : (N.of_nat m * N.of_nat n <= 16777216)%N ->
  exists t', set_size t m n = Some t' /\ sized t' m n.
Proof.
  intros H. unfold set_size, u32. rewrite N.mod_small by lia.
  assert (N.ltb 16777216 (N.of_nat m * N.of_nat n) = false) as -> by lia.
  eexists; split; [reflexivity|]. repeat split; cbn; try assumption.
  destruct (N.ltb_spec (t_size t) (N.of_nat m * N.of_nat n)); lia.
Qed.

Lemma create_table_ok {A} (eqb : A -> A -> bool) a b p t :
  presents eqb a b p ->
  (N.of_nat (length a + 1) * N.of_nat (length b + 1) <= 16777216)%N ->
  exists t', create_table t p = Ok (dist eqb (sp_replace p) (rev a) (rev b), t') /\ filled eqb a b p t'.
Proof.
  intros Hp Hl. unfold create_table. pose proof Hp as (Em & En & _). rewrite Em, En.
  destruct (set_size_small t _ _ Hl) as (t1 & -> & Hs).
  destruct (fill_table_ok eqb a b p Hp t1 Hs) as (t2 & -> & Hf). cbn [bind].
  destruct Hf as [Hs2 Hc]. rewrite (get_ok t2 _ _ _ _ Hs2) by lia. cbn [bind].
  exists t2. split.
  - rewrite Hc by lia. unfold pd.
    replace (length a + 1 - 1) with (length a) by lia. replace (length b + 1 - 1) with (length b) by lia.
    rewrite !firstn_all. reflexivity.
  - split; assumption.
Qed.

Lemma create_table_distance {A} (eqb : A -> A -> bool) (eqb_ok : forall x y, eqb x y = true <-> x = y) a b p t :
  presents eqb a b p ->
  (N.of_nat (length a + 1) * N.of_nat (length b + 1) <= 16777216)%N ->
  exists d t', create_table t p = Ok (d, t') /\ is_distance (sp_replace p) a b d.
Proof.
  intros Hp Hl. destruct (create_table_ok eqb a b p t Hp Hl) as (t' & E & _).
  eexists _, t'. split; [exact E|]. apply is_distance_rev. apply dist_is_distance. exact eqb_ok.
Qed.
