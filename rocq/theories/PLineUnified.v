(** Reading line by line, for any input: hunks of unified diffs, and that the readings are determined. *)
From Coq Require Import String Permutation.
From Verif Require Import Base QtStr Lev Diff Regex Patterns Parser SpecEdit SpecInline SpecPatch SpecParse SpecNormal SpecLines
  PRegex PStar PLev PHistory PEditLines PParse PUnified PHeaders PFileHeads PUnifiedDoc PFuel PAnyInput PNormal PLines PLineChunks PLineSame.
Local Open Scope Z_scope.

(** * Headers *)
Lemma range_of n k cnt : digit_string n -> (k = [] /\ cnt = []) \/ (digit_string cnt /\ k = lit "," ++ cnt) -> range (n ++ k) (hunk_side n cnt).
Proof.
  intros D [[-> ->]|[DC ->]].
  - rewrite hunk_side_bare by assumption. rewrite app_nil_r. now constructor.
  - unfold hunk_side. rewrite (to_int_reads n D), (to_int_opt_reads cnt DC).
    destruct cnt as [|x cn] eqn:EC; [destruct DC; congruence|]. rewrite <- EC in *. clear EC.
    destruct (fits cnt) eqn:F; [|now apply rg_unreadable].
    destruct (Z.eqb_spec (digits_value 0 cnt) 0) as [E|E]; [rewrite E; now apply rg_empty|now apply rg_count].
Qed.
Lemma of_range s r : range s r -> exists n k cnt, s = n ++ k /\ digit_string n /\ ((k = [] /\ cnt = []) \/ (digit_string cnt /\ k = lit "," ++ cnt)) /\ hunk_side n cnt = r.
Proof.
  assert (C : forall n cnt, digit_string n -> digit_string cnt -> hunk_side n cnt = if fits cnt then Some (if Z.eqb (digits_value 0 cnt) 0 then reads n + 1 else reads n, digits_value 0 cnt) else None).
  { intros n cnt D DC. unfold hunk_side. rewrite (to_int_reads n D), (to_int_opt_reads cnt DC).
    destruct cnt as [|x cn]; [destruct DC; congruence|]. destruct (fits (x :: cn)); reflexivity. }
  intros H. destruct H as [n D|n k D DK F V|n k D DK V|n k D DK F].
  - exists n, [], []. split; [now rewrite app_nil_r|]. split; [exact D|]. split; [left; auto|]. now apply hunk_side_bare.
  - exists n, (lit "," ++ k), k. split; [reflexivity|]. split; [exact D|]. split; [right; auto|]. rewrite C, F by assumption. apply Z.eqb_neq in V. now rewrite V.
  - exists n, (lit "," ++ k), k. split; [reflexivity|]. split; [exact D|]. split; [right; auto|]. rewrite C by assumption. unfold fits. now rewrite V.
  - exists n, (lit "," ++ k), k. split; [reflexivity|]. split; [exact D|]. split; [right; auto|]. rewrite C, F by assumption. reflexivity.
Qed.
(** The optional count in a forward reading. *)
Lemma count_forward (R : Type) g1 g2 k cnt rest (kk : str -> caps -> option R) c r :
  (k = [] /\ cnt = []) \/ (digit_string cnt /\ k = lit "," ++ cnt) ->
  (forall u c, kk (44%N :: u) c = None) ->
  kk (SP :: rest) (if Nat.eqb (length k) 0 then (g1, []) :: c else (g1, k) :: (g2, cnt) :: c) = Some r ->
  matches (RGroup g1 (RAlt REps (T "," ~~ RGroup g2 digits))) kk (k ++ SP :: rest) c = Some r.
Proof.
  intros HK NO K. rewrite m_group, m_alt, m_eps. destruct HK as [[-> ->]|[[D1 D2] ->]].
  - cbn [app length Nat.eqb] in *. match goal with |- context [kk (SP :: rest) ((g1, ?x) :: c)] => replace x with (@nil chr); [|now rewrite Nat.sub_diag] end.
    unfold str, chr in *. rewrite K. reflexivity.
  - change ((lit "," ++ cnt) ++ SP :: rest) with (44%N :: (cnt ++ SP :: rest)). rewrite NO. rewrite m_seq. unfold T.
    change (44%N :: (cnt ++ SP :: rest)) with (lit "," ++ (cnt ++ SP :: rest)). rewrite s_text, m_group. unfold digits, digit.
    apply s_plus_longest; [exact D1|exact D2|reflexivity|]. rewrite group_text.
    replace (lit "," ++ cnt ++ SP :: rest) with ((lit "," ++ cnt) ++ SP :: rest) by reflexivity. rewrite group_text. exact K.
Qed.
Lemma range_line_match l r1 r2 f : range_line l r1 r2 f ->
  exists c, full_match unified_hunk_header l = Some c /\ hunk_side (captured 1 c) (captured 3 c) = r1 /\ hunk_side (captured 4 c) (captured 6 c) = r2 /\ captured 7 c = f.
Proof.
  assert (G : forall s1 s2 r1 r2 t f, range s1 r1 -> range s2 r2 ->
    (forall c, matches (opt (is SP) ~~ RGroup 7 (star any) ~~ nl) kend t c = Some ((7%nat, f) :: c)) ->
    exists c, full_match unified_hunk_header (lit "@@ -" ++ s1 ++ lit " +" ++ s2 ++ lit " @@" ++ t) = Some c /\
      hunk_side (captured 1 c) (captured 3 c) = r1 /\ hunk_side (captured 4 c) (captured 6 c) = r2 /\ captured 7 c = f).
  { intros s1 s2 q1 q2 t g H1 H2 E. apply of_range in H1 as (n1 & k1 & c1 & -> & [A1 A2] & K1 & <-). apply of_range in H2 as (n2 & k2 & c2 & -> & [B1 B2] & K2 & <-).
    exists ((7%nat, g) :: (if Nat.eqb (length k2) 0 then [(5%nat, [])] else [(5%nat, k2); (6%nat, c2)]) ++ (4%nat, n2) :: (if Nat.eqb (length k1) 0 then [(2%nat, [])] else [(2%nat, k1); (3%nat, c1)]) ++ [(1%nat, n1)]). split.
    - unfold full_match, unified_hunk_header. rewrite <- !app_assoc. rewrite m_seq. unfold T at 1. rewrite s_text, m_seq, m_group. unfold digits at 1, digit at 1.
      assert (ST : forall k cnt rest, (k = [] /\ cnt = []) \/ (digit_string cnt /\ k = lit "," ++ cnt) -> match k ++ SP :: rest with x :: _ => is_digit x = false | [] => True end).
      { intros k cnt rest [[-> _]|[_ ->]]; reflexivity. }
      change (lit " +" ++ n2 ++ k2 ++ lit " @@" ++ t) with (SP :: (lit "+" ++ n2 ++ k2 ++ lit " @@" ++ t)).
      apply s_plus_longest; [exact A1|exact A2|eapply ST; eauto|]. rewrite group_text, m_seq. apply (count_forward _ _ _ k1 c1); [exact K1|reflexivity|].
      change (SP :: (lit "+" ++ n2 ++ k2 ++ lit " @@" ++ t)) with (lit " +" ++ n2 ++ k2 ++ lit " @@" ++ t). rewrite m_seq. unfold T at 1. rewrite s_text, m_seq, m_group.
      unfold digits at 1, digit at 1. change (lit " @@" ++ t) with (SP :: (lit "@@" ++ t)).
      apply s_plus_longest; [exact B1|exact B2|eapply ST; eauto|]. rewrite group_text, m_seq. apply (count_forward _ _ _ k2 c2); [exact K2|reflexivity|].
      change (SP :: (lit "@@" ++ t)) with (lit " @@" ++ t). rewrite m_seq. unfold T at 1. rewrite s_text. unfold kend in E. rewrite E.
      destruct (Nat.eqb (length k1) 0), (Nat.eqb (length k2) 0); reflexivity.
    - destruct K1 as [[-> ->]|[_ ->]], K2 as [[-> ->]|[_ ->]]; cbn; auto. }
  intros H. destruct H as [s1 s2 r1 r2 f H1 H2 O|s1 s2 r1 r2 f H1 H2 O N].
  - apply G; auto. intros c. rewrite m_seq. unfold opt. rewrite m_alt, s_is. unfold kend. erewrite any_rest; [reflexivity|exact O|]. reflexivity.
  - apply G; auto. intros c. rewrite m_seq. unfold opt. rewrite m_alt.
    assert (M : forall k, matches (is SP) k (f ++ [NL]) c = None :> option caps).
    { intros k. destruct f as [|x f]; [cbn [app]; now rewrite s_is_other by discriminate|]. cbn [app]. rewrite s_is_other; [reflexivity|]. intros <-. eapply N; reflexivity. }
    rewrite M, m_eps. unfold kend. erewrite any_rest; [reflexivity|exact O|]. reflexivity.
Qed.
Lemma match_range_line l c : full_match unified_hunk_header l = Some c ->
  range_line l (hunk_side (captured 1 c) (captured 3 c)) (hunk_side (captured 4 c) (captured 6 c)) (captured 7 c).
Proof.
  intros H. assert (E : exists r1 r2 f, range_line l r1 r2 f).
  { apply unified_hunk_header_inv in H as (n1 & k1 & n2 & k2 & sep & f & -> & D1 & D2 & HS & HF & K1 & K2 & _).
    pose proof (range_of n1 k1 _ D1 K1) as R1. pose proof (range_of n2 k2 _ D2 K2) as R2. destruct HS as [->| ->].
    - destruct f as [|x f]; [do 2 eexists; exists []; apply (rl_none (n1 ++ k1) (n2 ++ k2)); [exact R1|exact R2|exact HF|discriminate]|].
      destruct (N.eq_dec x SP) as [->|NE].
      + do 2 eexists; exists f. apply (rl_blank (n1 ++ k1) (n2 ++ k2)); [exact R1|exact R2|]. intros I. apply HF. right. exact I.
      + do 2 eexists; exists (x :: f). apply (rl_none (n1 ++ k1) (n2 ++ k2)); [exact R1|exact R2|exact HF|]. intros y X. injection X as -> _. contradiction.
    - do 2 eexists; exists f. apply (rl_blank (n1 ++ k1) (n2 ++ k2)); [exact R1|exact R2|exact HF]. }
  destruct E as (r1 & r2 & f & S). destruct (range_line_match _ _ _ _ S) as (c' & M & <- & <- & <-). rewrite H in M. injection M as <-. exact S.
Qed.

(** * Lines *)
Lemma counting_iff ca cb : counting ca cb = true <-> ~ (ca = 0 /\ cb = 0).
Proof. unfold counting. destruct (Z.eqb_spec ca 0), (Z.eqb_spec cb 0); cbn; split; try discriminate; try reflexivity; intuition. Qed.
Lemma stop_iff mark l ls ca cb : (starts_with [mark] l && counting ca cb)%bool = false -> (ca = 0 /\ cb = 0) \/ (forall t ls', l :: ls <> (mark :: t) :: ls').
Proof.
  intros E. destruct (counting ca cb) eqn:C.
  - right. intros t ls' X. injection X as -> _. rewrite starts_with_hd, N.eqb_refl in E. discriminate.
  - left. destruct (Z.eq_dec ca 0), (Z.eq_dec cb 0); auto; exfalso; assert (counting ca cb = true) by (apply counting_iff; lia); congruence.
Qed.
Lemma no_lines mark : forall t ls', [] <> ((mark : chr) :: t) :: ls'.
Proof. discriminate. Qed.
Lemma run_context ls : forall a b ca cb d d' c', take_context ls a b ca cb d = (d', c') ->
  exists ts, run SP 1 1 ca cb ls ts (uc_ca c') (uc_cb c') (uc_rest c') /\ d' = more ts ts d.
Proof.
  induction ls as [|l ls IH]; intros a b ca cb d d' c' H; cbn [take_context] in H.
  - injection H as <- <-. exists []. rewrite more_nil. split; [apply run_stop; right; apply no_lines|reflexivity].
  - destruct (starts_with [SP] l && counting ca cb)%bool eqn:E.
    + apply andb_prop in E as [E1 E2]. apply starts_with_1 in E1 as [l' ->]. apply counting_iff in E2.
      apply IH in H as (ts & R & ->). cbn [skipn]. exists (l' :: ts). rewrite add_both, more_more. split; [now apply run_line|reflexivity].
    + injection H as <- <-. exists []. rewrite more_nil. split; [|reflexivity]. apply run_stop. now apply stop_iff.
Qed.
Lemma run_removed ls : forall a b ca cb d d' c', take_removed ls a b ca cb d = (d', c') ->
  exists ts, run MINUS 1 0 ca cb ls ts (uc_ca c') (uc_cb c') (uc_rest c') /\ d' = more ts [] d.
Proof.
  induction ls as [|l ls IH]; intros a b ca cb d d' c' H; cbn [take_removed] in H.
  - injection H as <- <-. exists []. rewrite more_nil. split; [apply run_stop; right; apply no_lines|reflexivity].
  - destruct (starts_with [45%N] l && counting ca cb)%bool eqn:E.
    + apply andb_prop in E as [E1 E2]. apply starts_with_1 in E1 as [l' ->]. apply counting_iff in E2.
      apply IH in H as (ts & R & ->). cbn [skipn]. exists (l' :: ts). rewrite add_src, more_more. split; [|reflexivity].
      apply (run_line MINUS); [exact E2|]. now rewrite Z.sub_0_r.
    + injection H as <- <-. exists []. rewrite more_nil. split; [|reflexivity]. apply run_stop. now apply stop_iff.
Qed.
Lemma run_added ls : forall a b ca cb d d' c', take_added ls a b ca cb d = (d', c') ->
  exists ts, run PLUS 0 1 ca cb ls ts (uc_ca c') (uc_cb c') (uc_rest c') /\ d' = more [] ts d.
Proof.
  induction ls as [|l ls IH]; intros a b ca cb d d' c' H; cbn [take_added] in H.
  - injection H as <- <-. exists []. rewrite more_nil. split; [apply run_stop; right; apply no_lines|reflexivity].
  - destruct (starts_with [43%N] l && counting ca cb)%bool eqn:E.
    + apply andb_prop in E as [E1 E2]. apply starts_with_1 in E1 as [l' ->]. apply counting_iff in E2.
      apply IH in H as (ts & R & ->). cbn [skipn]. exists (l' :: ts). rewrite add_dst, more_more. split; [|reflexivity].
      apply (run_line PLUS); [exact E2|]. now rewrite Z.sub_0_r.
    + injection H as <- <-. exists []. rewrite more_nil. split; [|reflexivity]. apply run_stop. now apply stop_iff.
Qed.
Lemma run_some mark da db ca cb t ls ts ca' cb' rest : run mark da db ca cb ((mark :: t) :: ls) ts ca' cb' rest -> ~ (ca = 0 /\ cb = 0) -> ts <> [].
Proof. intros H N. inversion H as [? ? ? [X|X]|]; subst; [contradiction| |discriminate]. exfalso. eapply X; reflexivity. Qed.
Lemma run_none mark da db ca cb ls ts ca' cb' rest : run mark da db ca cb ls ts ca' cb' rest -> (forall t ls', ls <> (mark :: t) :: ls') -> ts = [] /\ rest = ls /\ ca' = ca /\ cb' = cb.
Proof. intros H N. inversion H; subst; auto. exfalso. eapply N; reflexivity. Qed.
Lemma change_shown a b sl dl d : sl <> [] \/ dl <> [] ->
  determine_inline (let d := more [] dl (more sl [] (new_diff a b Unchanged)) in
     if Nat.eqb (length (d_slines d)) 0 then set_type Insert d
     else if Nat.eqb (length (d_dlines d)) 0 then set_type Delete d else set_type Change d) = Ok d -> shows d (change_of sl dl) sl dl.
Proof.
  intros NE H. pose proof (change_diff_ok _ _ _ _ _ NE H) as (_ & _ & _ & W & _ & C & S & D). split; [|auto].
  unfold well_typed in W. unfold is_context in C. unfold lines_of in S, D. destruct (d_type d); try discriminate.
  - destruct W as [W1 W2]. destruct (d_slines d), (d_dlines d); try contradiction. subst. reflexivity.
  - destruct W as [W1 W2]. rewrite W1 in S. subst. reflexivity.
  - destruct W as [W1 W2]. rewrite W2 in D. destruct (d_slines d); [contradiction|]. subst. reflexivity.
Qed.
Lemma counted_ok fuel : forall c ds rest, unified_body_loop fuel c = Ok (ds, rest) -> counted (uc_ca c) (uc_cb c) (uc_rest c) ds rest.
Proof.
  induction fuel as [|fuel IH]; intros c ds rest H; [discriminate|]. cbn [unified_body_loop] in H.
  destruct (uc_rest c) as [|l ls] eqn:ER.
  { injection H as <- <-. apply cn_stop. right. intros; discriminate. }
  destruct (matches_unified_hunk_line l) as [isl| |] eqn:EM; try discriminate. cbn [bind] in H.
  destruct l as [|x l]; [discriminate EM|]. cbn [matches_unified_hunk_line] in EM. injection EM as EM.
  destruct (isl && counting (uc_ca c) (uc_cb c))%bool eqn:EC.
  2: { injection H as <- <-. apply cn_stop. destruct (counting (uc_ca c) (uc_cb c)) eqn:EN.
       - right. intros y t ls' X. injection X as <- _ _. rewrite andb_true_r in EC. rewrite EC in EM. apply orb_false_iff in EM as [EM E3]. apply orb_false_iff in EM as [E1 E2].
         apply N.eqb_neq in E1. apply N.eqb_neq in E2. apply N.eqb_neq in E3. auto.
       - left. destruct (Z.eq_dec (uc_ca c) 0), (Z.eq_dec (uc_cb c) 0); auto; exfalso; assert (counting (uc_ca c) (uc_cb c) = true) by (apply counting_iff; lia); congruence. }
  apply andb_prop in EC as [-> EC]. apply counting_iff in EC. rewrite starts_with_hd in H.
  destruct (N.eqb_spec x SP) as [->|NS].
  - destruct (take_context _ _ _ _ _ _) as [d' c'] eqn:ET. apply run_context in ET as (ts & R & ->).
    destruct (unified_body_loop fuel c') as [[ds' rest']| |] eqn:EL; try discriminate. cbn [bind] in H. injection H as <- <-. apply IH in EL.
    eapply cn_common; [exact R|eapply run_some; eauto| |exact EL]. unfold shows. cbn. rewrite !lines_of_new. auto.
  - destruct (take_removed _ _ _ _ _ _) as [d1 c1] eqn:ET1. apply run_removed in ET1 as (sl & R1 & ->).
    destruct (take_added _ _ _ _ _ _) as [d2 c2] eqn:ET2. apply run_added in ET2 as (dl & R2 & ->).
    destruct (determine_inline _) as [d| |] eqn:ED; try discriminate. cbn [bind] in H.
    destruct (unified_body_loop fuel c2) as [[ds' rest']| |] eqn:EL; try discriminate. cbn [bind] in H. injection H as <- <-. apply IH in EL.
    assert (NE : sl <> [] \/ dl <> []).
    { destruct (N.eq_dec x MINUS) as [->|NM]; [left; eapply run_some; eauto|]. right.
      apply run_none in R1 as (-> & E1 & E2 & E3); [|intros t ls' X; injection X as X _ _; contradiction]. rewrite E1, E2, E3 in R2.
      assert (x = PLUS) as ->. { cbn [orb] in EM. apply orb_true_iff in EM as [EM|EM]; apply N.eqb_eq in EM; [exact EM|contradiction]. }
      eapply run_some; eauto. }
    eapply cn_changed; [exact R1|exact R2|exact NE|exact (change_shown _ _ _ _ _ NE ED)|exact EL].
Qed.

(** * Hunks *)
Lemma no_range l : full_match unified_hunk_header l = None -> forall r1 r2 f, ~ range_line l r1 r2 f.
Proof. intros E r1 r2 f S. apply range_line_match in S as (c & M & _). pose proof (eq_trans (eq_sym E) M) as Y. discriminate Y. Qed.
Lemma counted_linked ca cb ls ds rest : counted ca cb ls ds rest -> counted ca cb ls (map linked ds) rest.
Proof.
  assert (SL : forall d ty s n, shows d ty s n -> shows (linked d) ty s n).
  { intros d ty s n (A & B & C). destruct (linked_fields d) as (L1 & _ & _ & _ & L2 & L3). unfold shows. rewrite L1, L2, L3. auto. }
  induction 1; cbn [map]; [now apply cn_stop|eapply cn_common|eapply cn_changed]; eauto.
Qed.
Lemma patches_ok fuel : forall ls m m' rest hs, contents m hs -> unified_hunks fuel ls m = Ok (m', rest) ->
  exists new, patches ls new rest /\ contents m' (hs ++ new) /\ (forall st, with_contents m' [] [] st = with_contents m [] [] st).
Proof.
  induction fuel as [|fuel IH]; intros ls m m' rest hs HC H; [discriminate|]. cbn [unified_hunks] in H.
  unfold unified_hunk_header_at in H. destruct ls as [|l ls].
  { injection H as <- <-. exists []. rewrite app_nil_r. split; [|auto]. apply pt_end. intros; discriminate. }
  destruct (full_match unified_hunk_header l) as [c|] eqn:EM.
  2: { injection H as <- <-. exists []. rewrite app_nil_r. split; [|auto]. apply pt_end. intros l' r' r1 r2 f X. injection X as <- _. now apply no_range. }
  pose proof (match_range_line _ _ EM) as RL.
  destruct (unified_hunk_body c ls m) as [[m1 ls1]| |] eqn:EB; try discriminate. cbn [bind] in H. unfold unified_hunk_body in EB.
  destruct (hunk_side (captured 1 c) (captured 3 c)) as [[a ca]|] eqn:E1.
  2: { injection EB as <- <-. apply (IH _ _ _ _ _ HC) in H as (new & P & C2 & W). exists new. split; [eapply pt_unreadable; eauto|auto]. }
  destruct (hunk_side (captured 4 c) (captured 6 c)) as [[b cb]|] eqn:E2.
  2: { injection EB as <- <-. apply (IH _ _ _ _ _ HC) in H as (new & P & C2 & W). exists new. split; [eapply pt_unreadable; eauto|auto]. }
  destruct (unified_body_loop _ _) as [[ds rest0]| |] eqn:EL; try discriminate. cbn [bind] in EB.
  rewrite add_parsed_hunk_ok in EB. cbn [bind] in EB. injection EB as <- <-.
  pose proof (counted_ok _ _ _ _ EL) as CN. apply unified_body_ok in EL as (_ & CT & _ & RW). cbn [uc_rest uc_a uc_b uc_ca uc_cb] in CN, CT.
  match type of H with unified_hunks _ _ ?mm = _ => remember mm as m1 eqn:EQ end.
  assert (HC1 : contents m1 (hs ++ [(mk_hunk a b (captured 7 c) HNormal (seq (length (dm_store m)) (length ds)), map linked ds)])).
  { rewrite EQ. apply contents_add. exact HC. }
  assert (W1 : forall st, with_contents m1 [] [] st = with_contents m [] [] st) by (rewrite EQ; reflexivity).
  clear EQ. apply (IH _ _ _ _ _ HC1) in H as (more & CK & HC2 & W2). rewrite <- app_assoc in HC2. cbn [app] in HC2.
  eexists. split; [|split; [exact HC2|intros st; rewrite W2; apply W1]].
  eapply pt_hunk; try eassumption; try reflexivity.
  - apply counted_linked. exact CN.
  - now apply linked_contiguous.
  - apply Forall_map. eapply Forall_impl; [|exact RW]. exact linked_pristine.
Qed.

(** * Determined *)
Lemma range_line_same l r1 r2 f r1' r2' f' : range_line l r1 r2 f -> range_line l r1' r2' f' -> r1 = r1' /\ r2 = r2' /\ f = f'.
Proof.
  intros H H'. apply range_line_match in H as (c & M & <- & <- & <-). apply range_line_match in H' as (c' & M' & <- & <- & <-). rewrite M in M'. injection M' as <-. auto.
Qed.
Lemma unified_run_same mark da db ca cb ls ts ca1 cb1 rest : run mark da db ca cb ls ts ca1 cb1 rest -> forall ts' ca1' cb1' rest',
  run mark da db ca cb ls ts' ca1' cb1' rest' -> ts = ts' /\ ca1 = ca1' /\ cb1 = cb1' /\ rest = rest'.
Proof.
  induction 1 as [ca cb ls S|ca cb t ls ts ca' cb' rest N R IH]; intros ts' ca1' cb1' rest' H'; inversion H' as [? ? ? S'|? ? ? ? ? ? ? ? N' R']; subst.
  - auto.
  - exfalso. destruct S as [S|S]; [contradiction|eapply S; reflexivity].
  - exfalso. destruct S' as [S'|S']; [contradiction|eapply S'; reflexivity].
  - apply IH in R' as (-> & -> & -> & ->). auto.
Qed.
Lemma run_starts mark da db ca cb ls ts ca1 cb1 rest : run mark da db ca cb ls ts ca1 cb1 rest -> ts <> [] -> ~ (ca = 0 /\ cb = 0) /\ exists t ls', ls = (mark :: t) :: ls'.
Proof. intros H N. inversion H; subst; [contradiction|]. eauto. Qed.
Lemma counted_same ca cb ls ds rest : counted ca cb ls ds rest -> forall ds' rest', counted ca cb ls ds' rest' ->
  map difference_shows ds = map difference_shows ds' /\ rest = rest'.
Proof.
  assert (CH : forall ca cb ls old c1 c2 ls1 new c3 c4 ls2, run MINUS 1 0 ca cb ls old c1 c2 ls1 -> run PLUS 0 1 c1 c2 ls1 new c3 c4 ls2 ->
    old <> [] \/ new <> [] -> ~ (ca = 0 /\ cb = 0) /\ exists x t ls', ls = (x :: t) :: ls' /\ (x = MINUS \/ x = PLUS)).
  { intros ca0 cb0 ls0 old c1 c2 ls1 new c3 c4 ls2 R1 R2 NE. destruct old as [|o old].
    - inversion R1 as [? ? ? S|]; subst. destruct NE as [NE|NE]; [contradiction|]. apply run_starts in R2 as (A & t & ls' & ->); [|exact NE]. split; [exact A|]. exists PLUS. eauto.
    - apply run_starts in R1 as (A & t & ls' & ->); [|discriminate]. split; [exact A|]. exists MINUS. eauto. }
  assert (ST : forall ca cb ls x t ls', (ca = 0 /\ cb = 0) \/ (forall c t ls', ls = (c :: t) :: ls' -> c <> SP /\ c <> PLUS /\ c <> MINUS) ->
    ~ (ca = 0 /\ cb = 0) -> ls = (x :: t) :: ls' -> x = SP \/ x = PLUS \/ x = MINUS -> False).
  { intros ca0 cb0 ls0 x t ls' [S|S] N E X; [contradiction|]. apply S in E. intuition. }
  induction 1 as [ca cb ls S|ca cb ls ts ca' cb' ls' d ds rest R NE SH C IH|ca cb ls old c1 c2 ls1 new c3 c4 ls2 d ds rest R1 R2 NE SH C IH]; intros ds' rest' H';
    inversion H' as [? ? ? S'|? ? ? ts' ca2 cb2 ls'' d' ds'' rest'' R' NE' SH' C'|? ? ? old' c1' c2' ls1' new' c3' c4' ls2' d' ds'' rest'' R1' R2' NE' SH' C']; subst.
  - auto.
  - exfalso. apply run_starts in R' as (A & t & r & E); [|exact NE']. eapply ST; eauto.
  - exfalso. destruct (CH _ _ _ _ _ _ _ _ _ _ _ R1' R2' NE') as (A & x & t & r & E & X). eapply ST; eauto. tauto.
  - exfalso. apply run_starts in R as (A & t & r & E); [|exact NE]. eapply ST; eauto.
  - destruct (unified_run_same _ _ _ _ _ _ _ _ _ _ R _ _ _ _ R') as (<- & <- & <- & <-). apply IH in C' as [E <-]. split; [|reflexivity]. cbn [map].
    apply shows_iff in SH. apply shows_iff in SH'. now rewrite E, SH, SH'.
  - exfalso. destruct (CH _ _ _ _ _ _ _ _ _ _ _ R1' R2' NE') as (_ & x & t & r & E & X). apply run_starts in R as (_ & t' & r' & E'); [|exact NE]. rewrite E in E'. injection E' as -> _ _. destruct X; discriminate.
  - exfalso. destruct (CH _ _ _ _ _ _ _ _ _ _ _ R1 R2 NE) as (A & x & t & r & E & X). eapply ST; eauto. tauto.
  - exfalso. destruct (CH _ _ _ _ _ _ _ _ _ _ _ R1 R2 NE) as (_ & x & t & r & E & X). apply run_starts in R' as (_ & t' & r' & E'); [|exact NE']. rewrite E in E'. injection E' as -> _ _. destruct X; discriminate.
  - destruct (unified_run_same _ _ _ _ _ _ _ _ _ _ R1 _ _ _ _ R1') as (<- & <- & <- & <-). destruct (unified_run_same _ _ _ _ _ _ _ _ _ _ R2 _ _ _ _ R2') as (<- & <- & <- & <-).
    apply IH in C' as [E <-]. split; [|reflexivity]. cbn [map]. apply shows_iff in SH. apply shows_iff in SH'. now rewrite E, SH, SH'.
Qed.
Lemma patches_same ls hs rest : patches ls hs rest -> forall hs' rest', patches ls hs' rest' -> map hunk_shows hs = map hunk_shows hs' /\ rest = rest'.
Proof.
  induction 1 as [rest N|l r1 r2 f ls hs rest R U P IH|l a ca b cb f ls ls' h ds hs rest R C CT PS A1 A2 A3 A4 P IH]; intros hs' rest' H';
    inversion H' as [? N'|? r1' r2' f' ? ? ? R' U' P'|? a' ca' b' cb' f' ? ls'' h' ds' hs'' ? R' C' CT' PS' B1 B2 B3 B4 P']; subst; auto.
  - exfalso. eapply N; eauto.
  - exfalso. eapply N; eauto.
  - exfalso. eapply N'; eauto.
  - exfalso. destruct (range_line_same _ _ _ _ _ _ _ R R') as (-> & -> & _). destruct U; discriminate.
  - exfalso. eapply N'; eauto.
  - exfalso. destruct (range_line_same _ _ _ _ _ _ _ R R') as (<- & <- & _). destruct U'; discriminate.
  - destruct (range_line_same _ _ _ _ _ _ _ R R') as (E1 & E2 & E3). injection E1 as E1 <-. injection E2 as E2 <-.
    destruct (counted_same _ _ _ _ _ C _ _ C') as [E4 <-]. apply IH in P' as [E5 <-]. split; [|reflexivity]. cbn [map]. unfold hunk_shows at 1 3. cbn [fst snd].
    now rewrite E1, E2, E3, E4, E5.
Qed.
