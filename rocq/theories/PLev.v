(** Consequences for inline and line markers, size limit, hashing. *)
From Coq Require Import FMapPositive String ZifyBool ZifyNat ZifyN.
From Verif Require Import Base QtStr Lev Diff SpecEdit SpecInline PLevTable PLevWalk.
Ltac Zify.zify_post_hook ::= Z.div_mod_to_equations.

(** * LCS characterisation *)
Lemma edit_common {A} (a b : list A) k : edit false a b k ->
  exists l, subseq l a /\ subseq l b /\ k + 2 * length l = length a + length b.
Proof.
  induction 1 as [|x a b k H IH|x a b k H IH|y a b k H IH|x y a b k Hs H IH]; try discriminate.
  - exists []. repeat split; constructor.
  - destruct IH as (l & H1 & H2 & E). exists (x :: l). repeat split; try (constructor; assumption). cbn; lia.
  - destruct IH as (l & H1 & H2 & E). exists l. repeat split; try assumption; [constructor; assumption|cbn; lia].
  - destruct IH as (l & H1 & H2 & E). exists l. repeat split; try assumption; [constructor; assumption|cbn; lia].
Qed.
Lemma subseq_length {A} (l a : list A) : subseq l a -> length l <= length a.
Proof. induction 1; cbn; lia. Qed.
Lemma common_edit {A} (l a b : list A) : subseq l a -> subseq l b ->
  edit false a b (length a + length b - 2 * length l).
Proof.
  intros Ha; revert b; induction Ha as [|x l a Ha IH|x l a Ha IH]; intros b Hb.
  - replace (length (@nil A) + length b - 2 * length (@nil A)) with (length b) by (cbn [length]; lia).
    apply edit_inss.
  - specialize (IH b Hb). pose proof (subseq_length _ _ Ha). pose proof (subseq_length _ _ Hb).
    replace (length (x :: a) + length b - 2 * length l) with (S (length a + length b - 2 * length l))
      by (cbn [length]; lia).
    apply edit_del. exact IH.
  - remember (x :: l) as xl eqn:E. revert x l E Ha IH.
    induction Hb as [|y l0 b Hb IHb|y l0 b Hb IHb]; intros x l E Ha IH; [discriminate| |].
    + subst l0. pose proof (subseq_length _ _ Ha). pose proof (subseq_length _ _ Hb). cbn [length] in *.
      replace (S (length a) + S (length b) - 2 * S (length l)) with (S (S (length a) + length b - 2 * S (length l))) by lia.
      apply edit_ins. specialize (IHb x l eq_refl Ha IH). cbn [length] in IHb. exact IHb.
    + injection E as -> ->. pose proof (subseq_length _ _ Ha). pose proof (subseq_length _ _ Hb).
      replace (length (x :: a) + length (x :: b) - 2 * length (x :: l)) with (length a + length b - 2 * length l) by (cbn [length]; lia).
      apply edit_keep. apply IH. exact Hb.
Qed.
Lemma distance_lcs {A} (a b : list A) d : is_distance false a b d ->
  (exists l, subseq l a /\ subseq l b /\ d + 2 * length l = length a + length b) /\
  (forall l, subseq l a -> subseq l b -> d + 2 * length l <= length a + length b).
Proof.
  intros [H1 H2]. split; [apply edit_common; exact H1|].
  intros l Ha Hb. pose proof (H2 _ (common_edit l a b Ha Hb)).
  pose proof (subseq_length _ _ Ha). pose proof (subseq_length _ _ Hb). lia.
Qed.
Lemma is_distance_unique {A} sub (a b : list A) d d' : is_distance sub a b d -> is_distance sub a b d' -> d = d'.
Proof. intros [H1 H2] [H3 H4]. pose proof (H2 _ H3). pose proof (H4 _ H1). lia. Qed.

(** * createTable *)
Lemma char_table t a b : (area a b <= limit)%N ->
  exists d t', create_table t (string_pair a b) = Ok (d, t') /\ is_distance true a b d.
Proof. intros H. apply (create_table_distance chr_eqb chr_eqb_ok a b (string_pair a b) t (string_pair_presents a b) H). Qed.
Lemma line_table h t a b : (area a b <= limit)%N ->
  exists d t', create_table t (lines_pair h a b) = Ok (d, t') /\ is_distance false a b d.
Proof. intros H. apply (create_table_distance str_eqb str_eqb_ok a b (lines_pair h a b) t (lines_pair_presents h a b) H). Qed.

Lemma pd_full {A} (eqb : A -> A -> bool) a b p : 
  pd eqb a b p (length a) (length b) = dist eqb (sp_replace p) (rev a) (rev b).
Proof. unfold pd. rewrite !firstn_all. reflexivity. Qed.

(** Markers of a pair of lists of lines. *)
Lemma line_markers h t a b : (area a b <= limit)%N ->
  exists d t' m1 m2, create_table t (lines_pair h a b) = Ok (d, t') /\
    create_markers t' (lines_pair h a b) [] [] = Ok (m1, m2) /\
    is_distance false a b d /\
    paired m1 (length a) /\ paired m2 (length b) /\
    plain_text m1 a = plain_text m2 b /\
    changed_count m1 a + changed_count m2 b = d.
Proof.
  intros Hl. set (p := lines_pair h a b).
  destruct (create_table_ok str_eqb a b p t (lines_pair_presents h a b) Hl) as (t' & E & Hf).
  destruct (create_markers_fine str_eqb str_eqb_ok a b p t' Hf) as (m1 & m2 & Em & _ & _ & Hpl & _ & _ & _ & H);
    [reflexivity|]. destruct (H eq_refl) as (Hc & P1 & P2). rewrite pd_full in Hc.
  eexists _, t', m1, m2. split; [exact E|]. split; [exact Em|]. split.
  { apply is_distance_rev, dist_is_distance. exact str_eqb_ok. }
  repeat split; try assumption. symmetry; exact Hc.
Qed.

(** * Inline markers *)
Lemma plain_none {A} pos (l : list A) : plain_from [] pos l = l /\ count_changed [] pos l = 0.
Proof. revert pos; induction l as [|x l IH]; intros pos; cbn; [auto|]. destruct (IH (S pos)) as [-> ->]. auto. Qed.

Lemma plain_whole {A} (l : list A) : plain_text [mk_marker MStart 0; mk_marker MEnd (length l)] l = [].
Proof.
  unfold plain_text. destruct (plain_all [mk_marker MStart 0; mk_marker MEnd (length l)] (length l) 0 l) as [E _].
  - intros k Hk. apply changed_all. lia.
  - lia.
  - rewrite E, skipn_all. reflexivity.
Qed.

Lemma inline_line_ok t s d : (area (ds_string s) (ds_string d) <= limit)%N ->
  ds_markers s = [] -> ds_markers d = [] ->
  exists t' m1 m2, inline_line t s d = Ok (t', ds_set_markers m1 s, ds_set_markers m2 d) /\
    marked_pair (ds_string s) (ds_string d) m1 m2.
Proof.
  destruct s as [a ca ha ms], d as [b cb hb md]; cbn [ds_string ds_markers]; intros Hl -> ->.
  unfold inline_line; cbn [ds_string ds_markers]. set (p := string_pair a b).
  destruct (create_table_ok chr_eqb a b p t (string_pair_presents a b) Hl) as (t' & -> & Hf). cbn [bind].
  rewrite <- pd_full.
  assert (is_distance true a b (pd chr_eqb a b p (length a) (length b))) as Hdist.
  { rewrite pd_full. apply is_distance_rev, dist_is_distance. exact chr_eqb_ok. }
  set (D := pd chr_eqb a b p (length a) (length b)) in *.
  destruct (Nat.eqb_spec D 0) as [E0|E0].
  - exists t', [], []. split; [reflexivity|].
    assert (a = b) as ->.
    { rewrite E0 in Hdist. destruct Hdist as [Hd _]. clear - Hd. remember 0 as k eqn:Ek.
      induction Hd; try discriminate; [reflexivity|]. f_equal. auto. }
    constructor; try exact I; try reflexivity.
    + intros d Hd _. unfold changed_count. rewrite !(proj2 (plain_none 0 _)).
      pose proof (is_distance_unique _ _ _ _ _ Hd Hdist). lia.
    + intros d Hd Hgt. pose proof (is_distance_unique _ _ _ _ _ Hd Hdist). lia.
  - destruct (sp_fine p D) eqn:Efine.
    + destruct (create_markers_fine chr_eqb chr_eqb_ok a b p t' Hf Efine) as (m1 & m2 & -> & H1 & H2 & H3 & H4 & H5 & H6 & _).
      cbn [bind]. exists t', m1, m2. split; [reflexivity|].
      constructor; try assumption.
      * intros d Hd _. pose proof (is_distance_unique _ _ _ _ _ Hd Hdist). subst d. auto.
      * intros d Hd Hgt. exfalso. pose proof (is_distance_unique _ _ _ _ _ Hd Hdist). subst d.
        cbn [sp_fine p string_pair length] in Efine. apply Nat.leb_le in Efine.
        replace (S (length a)) with (length a + 1) in Efine by lia. replace (S (length b)) with (length b + 1) in Efine by lia. lia.
    + rewrite (create_markers_coarse chr_eqb a b p t' Hf Efine). cbn [bind].
      eexists t', _, _. split; [reflexivity|].
      constructor; try (cbn; lia).
      * rewrite !plain_whole. reflexivity.
      * intros d Hd Hle. exfalso. pose proof (is_distance_unique _ _ _ _ _ Hd Hdist). subst d.
        cbn [sp_fine p string_pair length] in Efine. apply Nat.leb_gt in Efine.
        replace (S (length a)) with (length a + 1) in Efine by lia. replace (S (length b)) with (length b + 1) in Efine by lia. lia.
      * intros d _ _. split; apply plain_whole.
Qed.

(** * Size limit *)
Lemma set_size_reject t m n : (limit < N.of_nat m * N.of_nat n < 4294967296)%N -> set_size t m n = None.
Proof.
  unfold limit. intros H. unfold set_size, u32. rewrite N.mod_small by lia.
  assert (N.ltb 16777216 (N.of_nat m * N.of_nat n) = true) as -> by lia. reflexivity.
Qed.
Lemma inline_line_rejected t s d : (limit < area (ds_string s) (ds_string d) < 4294967296)%N ->
  inline_line t s d = Ok (t, s, d).
Proof.
  intros H. unfold inline_line, create_table. cbn [sp_m sp_n string_pair length].
  rewrite set_size_reject; [reflexivity|]. unfold area in H.
  replace (S (length (ds_string s))) with (length (ds_string s) + 1) by lia.
  replace (S (length (ds_string d))) with (length (ds_string d) + 1) by lia. exact H.
Qed.

Lemma for_each_each {A S} (P : S -> Prop) (body : A -> S -> res S) l : forall s s',
  (forall x s s', P s -> body x s = Ok s' -> P s') -> P s ->
  for_each l body s = Ok s' -> P s' /\ forall x, In x l -> exists s1 s2, P s1 /\ body x s1 = Ok s2.
Proof.
  induction l as [|x l IH]; intros s s' Hstep H0 E; cbn in E.
  - injection E as <-. split; [exact H0|]. intros x [].
  - destruct (body x s) as [s1| |] eqn:Eb; try discriminate. cbn in E.
    destruct (IH s1 s' Hstep (Hstep _ _ _ H0 Eb) E) as [H1 H2]. split; [exact H1|].
    intros z [<-|Hz]; [eauto|auto].
Qed.
Lemma for_each_fuel {A S} (body : A -> S -> res S) l : forall s,
  (forall x s, body x s <> OutOfFuel) -> for_each l body s <> OutOfFuel.
Proof.
  induction l as [|x l IH]; intros s H; cbn; [discriminate|].
  destruct (body x s) eqn:E; cbn; [apply IH; exact H|discriminate|]. exfalso; eapply H; exact E.
Qed.
Lemma set_content_frame t x y v t' : set_content t x y v = Ok t' ->
  same_frame t t' /\ (cell_index t x y < t_size t)%N.
Proof.
  unfold set_content. destruct (N.ltb_spec (cell_index t x y) (t_size t)); [|discriminate].
  intros E; injection E as <-. repeat split. assumption.
Qed.
Lemma fill_cell_frame p j i t t' : fill_cell p j i t = Ok t' ->
  same_frame t t' /\ (cell_index t i j < t_size t)%N.
Proof.
  unfold fill_cell. intros H.
  destruct (sp_equal p i j); try discriminate; cbn [bind] in H.
  do 3 (match type of H with context [get_content ?t ?x ?y] => destruct (get_content t x y); try discriminate; cbn [bind] in H end).
  eapply set_content_frame; exact H.
Qed.

Lemma wrap_ub t a b : (t_size t <= limit)%N ->
  (4294967296 <= area a b)%N -> (area a b mod 4294967296 <= limit)%N ->
  exists why, create_table t (string_pair a b) = UB why.
Proof.
  intros Ht Ha Hw. set (p := string_pair a b).
  assert (create_table t p <> OutOfFuel) as Hnf.
  { unfold create_table. destruct (set_size t (sp_m p) (sp_n p)) as [t1|]; [|discriminate].
    assert (forall t x y, get_content t x y <> OutOfFuel) as Hg.
    { intros t0 x y. unfold get_content. destruct (N.ltb _ _); discriminate. }
    assert (forall t x y v, set_content t x y v <> OutOfFuel) as Hs.
    { intros t0 x y v. unfold set_content. destruct (N.ltb _ _); discriminate. }
    assert (forall i j, sp_equal p i j <> OutOfFuel) as He.
    { intros i j. cbn. destruct (nth_error (SP :: a) i), (nth_error (SP :: b) j); discriminate. }
    assert (forall t, fill_table p t <> OutOfFuel) as Hft.
    { intros t0. unfold fill_table.
      destruct (for_each (seq 0 (sp_m p)) _ t0) eqn:E1; cbn [bind]; [|discriminate|exfalso; eapply for_each_fuel; [|exact E1]; intros; apply Hs].
      destruct (for_each (seq 0 (sp_n p)) _ a0) eqn:E2; cbn [bind]; [|discriminate|exfalso; eapply for_each_fuel; [|exact E2]; intros; apply Hs].
      apply for_each_fuel. intros j s. apply for_each_fuel. intros i s'.
      unfold fill_cell.
      destruct (sp_equal p i j) eqn:E3; cbn [bind]; [|discriminate|exfalso; eapply He; exact E3].
      destruct (get_content s' i (j - 1)) eqn:E4; cbn [bind]; [|discriminate|exfalso; eapply Hg; exact E4].
      destruct (get_content s' (i - 1) j) eqn:E5; cbn [bind]; [|discriminate|exfalso; eapply Hg; exact E5].
      destruct (get_content s' (i - 1) (j - 1)) eqn:E6; cbn [bind]; [|discriminate|exfalso; eapply Hg; exact E6].
      apply Hs. }
    destruct (fill_table p t1) eqn:E; cbn [bind]; [|discriminate|exfalso; eapply Hft; exact E].
    destruct (get_content a0 (sp_m p - 1) (sp_n p - 1)) eqn:E2; cbn [bind]; [discriminate|discriminate|exfalso; eapply Hg; exact E2]. }
  destruct (create_table t p) as [[d t']|why|] eqn:E; [exfalso|eauto|contradiction].
  unfold create_table in E.
  assert (sp_m p = length a + 1) as Em by (cbn; lia). assert (sp_n p = length b + 1) as En by (cbn; lia).
  unfold area in *.
  set (m := length a + 1) in *. set (n := length b + 1) in *.
  unfold set_size, u32 in E. rewrite Em, En in E.
  assert (N.ltb 16777216 ((N.of_nat m * N.of_nat n) mod 4294967296) = false) as Elt by (unfold limit in *; lia).
  rewrite Elt in E. set (t1 := mk_table _ _ _ _) in E.
  assert ((t_size t1 <= limit)%N) as Hs1.
  { unfold t1; cbn [t_size]. destruct (N.ltb _ _); assumption. }
  assert (t_w t1 = N.of_nat m) as Hw1 by reflexivity.
  clearbody t1. clear Elt.
  destruct (fill_table p t1) as [t2| |] eqn:Ef; try discriminate. clear E.
  set (k := 4294967295%N).
  assert (exists x y, x < m /\ y < n /\ forall t, t_w t = N.of_nat m -> cell_index t x y = k) as (x & y & Hx & Hy & Hk).
  { exists (N.to_nat (k mod N.of_nat m)), (N.to_nat (k / N.of_nat m)).
    assert (N.of_nat m <> 0%N) by (unfold m; lia).
    pose proof (N.mod_lt k (N.of_nat m) ltac:(assumption)) as Hml.
    pose proof (N.div_mod k (N.of_nat m) ltac:(assumption)) as Hdm.
    split; [lia|]. split.
    - assert (k / N.of_nat m < N.of_nat n)%N; [|lia].
      apply N.div_lt_upper_bound; [assumption|]. unfold k; lia.
    - intros t0 Ht0. unfold cell_index, u32. rewrite Ht0, !N2Nat.id.
      assert (k / N.of_nat m * N.of_nat m <= k)%N by lia.
      rewrite (N.mod_small (k / N.of_nat m * N.of_nat m)) by (unfold k in *; lia).
      rewrite N.mod_small; unfold k in *; lia. }
  unfold fill_table in Ef. rewrite Em, En in Ef.
  set (P := fun t => t_w t = N.of_nat m /\ (t_size t <= limit)%N).
  assert (forall t t', P t -> same_frame t t' -> P t') as HP.
  { intros u u' [H1 H2] (H3 & H4 & H5). split; congruence. }
  assert (forall u, P u -> (cell_index u x y < t_size u)%N -> False) as Hcontra.
  { intros u [H1 H2] H3. rewrite (Hk u H1) in H3. unfold k, limit in *. lia. }
  assert (P t1) as HP1 by (split; assumption).
  destruct (for_each (seq 0 m) _ t1) as [t3| |] eqn:E1; try discriminate. cbn [bind] in Ef.
  destruct (for_each_each P _ _ _ _ (fun i s s' Hs H => HP _ _ Hs (proj1 (set_content_frame _ _ _ _ _ H))) HP1 E1) as [HP3 He1].
  destruct (for_each (seq 0 n) _ t3) as [t4| |] eqn:E2; try discriminate. cbn [bind] in Ef.
  destruct (for_each_each P _ _ _ _ (fun i s s' Hs H => HP _ _ Hs (proj1 (set_content_frame _ _ _ _ _ H))) HP3 E2) as [HP4 He2].
  destruct (Nat.eq_dec y 0) as [->|Hy0].
  { destruct (He1 x) as (s1 & s2 & Hs & Hb); [apply in_seq; lia|].
    apply set_content_frame in Hb as [_ Hb]. eapply Hcontra; eauto. }
  destruct (Nat.eq_dec x 0) as [->|Hx0].
  { destruct (He2 y) as (s1 & s2 & Hs & Hb); [apply in_seq; lia|].
    apply set_content_frame in Hb as [_ Hb]. eapply Hcontra; eauto. }
  assert (forall j s s', P s -> for_each (seq 1 (m - 1)) (fun i t => fill_cell p j i t) s = Ok s' -> P s') as Hinner.
  { intros j s s' Hs H. eapply (for_each_each P); [|exact Hs|exact H].
    intros i u u' Hu Hb. eapply HP; [exact Hu|]. eapply fill_cell_frame; exact Hb. }
  destruct (for_each_each P _ _ _ _ (fun j s s' Hs H => Hinner j s s' Hs H) HP4 Ef) as [_ He3].
  destruct (He3 y) as (s1 & s2 & Hs & Hb); [apply in_seq; lia|].
  destruct (for_each_each P _ _ _ _ (fun i u u' Hu Hb' => HP _ _ Hu (proj1 (fill_cell_frame _ _ _ _ _ Hb'))) Hs Hb) as [_ He4].
  destruct (He4 x) as (u1 & u2 & Hu & Hb2); [apply in_seq; lia|].
  apply fill_cell_frame in Hb2 as [_ Hb2]. eapply Hcontra; eauto.
Qed.

(** * Whole differences *)
Lemma inline_lines_ok : forall sl dl t,
  length sl = length dl ->
  (forall s, In s sl -> ds_markers s = []) -> (forall d, In d dl -> ds_markers d = []) ->
  (forall i s d, nth_error sl i = Some s -> nth_error dl i = Some d -> no_wrap s d) ->
  exists sl' dl', inline_lines t sl dl = Ok (sl', dl') /\
    Forall2 same_text sl sl' /\ Forall2 same_text dl dl' /\
    forall i s d, nth_error sl' i = Some s -> nth_error dl' i = Some d ->
      ((area (ds_string s) (ds_string d) <= limit)%N -> marked_pair (ds_string s) (ds_string d) (ds_markers s) (ds_markers d)) /\
      ((limit < area (ds_string s) (ds_string d))%N -> ds_markers s = [] /\ ds_markers d = []).
Proof.
  induction sl as [|s sl IH]; intros [|d dl] t Hlen Hs Hd Hok; cbn in Hlen; try lia.
  - exists [], []. repeat split; try constructor. all: destruct i; discriminate.
  - cbn [inline_lines].
    assert (exists t' m1 m2, inline_line t s d = Ok (t', ds_set_markers m1 s, ds_set_markers m2 d) /\
       ((area (ds_string s) (ds_string d) <= limit)%N -> marked_pair (ds_string s) (ds_string d) m1 m2) /\
       ((limit < area (ds_string s) (ds_string d))%N -> m1 = [] /\ m2 = [])) as (t' & m1 & m2 & E & H1 & H2).
    { pose proof (Hs s (or_introl eq_refl)) as Hms. pose proof (Hd d (or_introl eq_refl)) as Hmd.
      destruct (N.le_gt_cases (area (ds_string s) (ds_string d)) limit) as [Hle|Hgt].
      - destruct (inline_line_ok t s d Hle Hms Hmd) as (t' & m1 & m2 & E & Hmp).
        exists t', m1, m2. split; [exact E|]. split; [intros _; exact Hmp|lia].
      - exists t, [], []. split.
        + rewrite inline_line_rejected.
          * destruct s, d; cbn in *; subst. reflexivity.
          * split; [exact Hgt|]. apply (Hok 0 s d); reflexivity.
        + split; [lia|auto]. }
    rewrite E. cbn [bind].
    destruct (IH dl t') as (sl' & dl' & E' & F1 & F2 & HH).
    { lia. } { intros; apply Hs; right; assumption. } { intros; apply Hd; right; assumption. }
    { intros i s' d' A B. apply (Hok (S i)); assumption. }
    rewrite E'. cbn [bind]. eexists _, _. split; [reflexivity|].
    split; [constructor; [eexists; reflexivity|assumption]|].
    split; [constructor; [eexists; reflexivity|assumption]|].
    intros [|i] s' d'; cbn; [|apply HH].
    intros E1 E2; injection E1 as <-; injection E2 as <-. cbn. auto.
Qed.

Lemma determine_inline_ok d :
  (forall s, In s (d_slines d) -> ds_markers s = []) -> (forall s, In s (d_dlines d) -> ds_markers s = []) ->
  (forall i s e, nth_error (d_slines d) i = Some s -> nth_error (d_dlines d) i = Some e -> no_wrap s e) ->
  exists sl dl, determine_inline d = Ok (set_lines sl dl d) /\
    Forall2 same_text (d_slines d) sl /\ Forall2 same_text (d_dlines d) dl /\
    ((d_type d <> Change \/ length (d_slines d) <> length (d_dlines d)) -> sl = d_slines d /\ dl = d_dlines d) /\
    forall i s e, nth_error sl i = Some s -> nth_error dl i = Some e ->
      d_type d = Change -> length (d_slines d) = length (d_dlines d) ->
      ((area (ds_string s) (ds_string e) <= limit)%N -> marked_pair (ds_string s) (ds_string e) (ds_markers s) (ds_markers e)) /\
      ((limit < area (ds_string s) (ds_string e))%N -> ds_markers s = [] /\ ds_markers e = []).
Proof.
  intros Hs Hd Hok. unfold determine_inline.
  assert (forall l, Forall2 same_text l l) as Hrefl.
  { intros l; induction l as [|[x c h ms] l IH]; constructor; [exists ms; reflexivity|exact IH]. }
  assert (Ok d = Ok (set_lines (d_slines d) (d_dlines d) d)) as Hid by (destruct d; reflexivity).
  destruct (dtype_eqb (d_type d) Change) eqn:Et; cbn [negb].
  2: { exists (d_slines d), (d_dlines d). split; [exact Hid|]. split; [apply Hrefl|]. split; [apply Hrefl|].
       split; [auto|]. intros i s e _ _ Hc _. rewrite Hc in Et. discriminate. }
  destruct (Nat.eqb_spec (length (d_slines d)) (length (d_dlines d))) as [El|El]; cbn [negb].
  2: { exists (d_slines d), (d_dlines d). split; [exact Hid|]. split; [apply Hrefl|]. split; [apply Hrefl|].
       split; [auto|]. intros i s e _ _ _ Hc. contradiction. }
  destruct (inline_lines_ok (d_slines d) (d_dlines d) new_table El Hs Hd Hok) as (sl & dl & -> & F1 & F2 & HH).
  cbn [bind]. exists sl, dl. split; [reflexivity|]. split; [exact F1|]. split; [exact F2|]. split.
  - intros [H|H]; [|contradiction]. destruct (d_type d); try discriminate; contradiction.
  - intros i s e H1 H2 _ _. apply (HH i s e H1 H2).
Qed.

(** * Hash *)
Lemma built_hash d : built d -> ds_hash d = calculate_hash (ds_string d).
Proof. induction 1; cbn; auto. Qed.
Lemma ds_eq_ok a b : built a -> built b -> (ds_eq a b = true <-> ds_string a = ds_string b).
Proof.
  intros Ha Hb. unfold ds_eq. rewrite (built_hash a Ha), (built_hash b Hb).
  destruct (N.eqb_spec (calculate_hash (ds_string a)) (calculate_hash (ds_string b))) as [E|E]; cbn [negb].
  - apply str_eqb_ok.
  - split; [discriminate|]. intros E'. congruence.
Qed.
