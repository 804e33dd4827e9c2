(** What the file header patterns match. *)
From Coq Require Import String Permutation.
From Verif Require Import Base QtStr Diff Regex Patterns Parser SpecPatch SpecParse PRegex PHeaders.
Local Open Scope Z_scope.

Notation kend := (fun (s' : str) (c : caps) => match s' with [] => Some c | _ :: _ => None end).

Lemma split_first (x : chr) (s : str) : (~ In x s) \/ exists u v, s = u ++ x :: v /\ ~ In x u.
Proof.
  induction s as [|y s IH]; [left; intros []|].
  destruct (N.eq_dec y x) as [->|N]; [right; exists [], s; auto|].
  destruct IH as [H|(u & v & -> & H)].
  - left. intros [E|E]; auto.
  - right. exists (y :: u), v. split; [reflexivity|]. intros [E|E]; auto.
Qed.
Lemma forallb_not c w : ~ In c w -> forallb (fun x => negb (N.eqb x c)) w = true.
Proof. apply not_chr_any. Qed.
Lemma forallb_app' {A} (p : A -> bool) u v : forallb p (u ++ v) = (forallb p u && forallb p v)%bool.
Proof. apply forallb_app. Qed.

(** The part after the mark. *)
Lemma header_line_match mark l p t : header_line (lit mark) l p t ->
  exists c, full_match (unified_header mark) l = Some c /\ captured 1 c = p /\ captured 2 c = t /\ captured 4 c = [].
Proof.
  intros H. unfold full_match, unified_header. destruct H as [p Np Tp|p t Np Tp Nt Tt|p t x Np Tp Nt Tt Nx].
  - exists [(1%nat, p)]. split; [|auto]. rewrite m_seq. unfold T. rewrite s_text, m_seq, m_group.
    unfold not_chr. apply s_plus_take; auto using forallb_not.
    + rewrite group_text, m_seq. unfold opt, nl. rewrite m_alt, m_seq. unfold tab. rewrite s_is_other by discriminate.
      rewrite m_eps, s_is. reflexivity.
    + intros y w2 rest2 E F. destruct w2; [|destruct w2; discriminate]. cbn in E. injection E as <- <-.
      rewrite m_seq. unfold opt, nl. rewrite m_alt, m_seq. reflexivity.
  - exists [(3%nat, []); (2%nat, t); (1%nat, p)]. split; [|auto]. rewrite m_seq. unfold T. rewrite s_text, m_seq, m_group.
    apply s_plus_longest; auto using forallb_not. rewrite group_text.
    rewrite m_seq. unfold opt. rewrite m_alt. rewrite !m_seq. unfold tab at 1. rewrite s_is.
    rewrite m_seq, m_group. unfold not_chr.
    erewrite s_plus_take; [reflexivity|auto|auto using forallb_not| |].
    + rewrite group_text, m_seq. unfold opt. rewrite m_alt. unfold tab. rewrite s_is_other by discriminate.
      rewrite m_eps, m_group. unfold star, any. rewrite m_star_chr. cbn [N.eqb negb NL]. cbn. reflexivity.
    + intros y w2 rest2 E F. destruct w2; [|destruct w2; discriminate]. cbn in E. injection E as <- <-.
      rewrite m_seq. unfold opt, tab. rewrite m_alt. cbn. reflexivity.
  - exists [(3%nat, x); (2%nat, t); (1%nat, p)]. split; [|auto]. rewrite m_seq. unfold T. rewrite s_text, m_seq, m_group.
    apply s_plus_longest; auto using forallb_not. rewrite group_text.
    rewrite m_seq. unfold opt. rewrite m_alt. rewrite !m_seq. unfold tab at 1. rewrite s_is.
    rewrite m_seq, m_group. unfold not_chr.
    erewrite s_plus_longest; [reflexivity|auto|auto using forallb_not|reflexivity|].
    rewrite group_text, m_seq. unfold opt. rewrite m_alt. unfold tab. rewrite s_is, m_group.
    unfold star, any. erewrite m_star_longest; [reflexivity|now apply not_nl_any|reflexivity|].
    rewrite group_text. unfold nl. rewrite s_is. reflexivity.
Qed.
Lemma match_header_line mark l c : full_match (unified_header mark) l = Some c ->
  header_line (lit mark) l (captured 1 c) (captured 2 c) /\ captured 4 c = [].
Proof.
  intros H.
  assert (E : exists p t, header_line (lit mark) l p t).
  { unfold full_match, unified_header in H. inv_match H. rewrite m_seq, m_group in H.
    apply i_plus in H as (w1 & rest & -> & N1 & F1 & H). apply not_chr_any in F1. rewrite m_seq in H.
    unfold opt in H at 1. apply i_alt in H as [H|[_ H]].
    - inv_match H. rewrite m_seq, m_group in H. unfold not_chr in H.
      apply i_plus in H as (w2 & rest2 & -> & N2 & F2 & H). apply not_chr_any in F2. rewrite m_seq in H.
      unfold opt in H. apply i_alt in H as [H|[_ H]].
      + unfold tab in H. apply i_is in H as (r3 & -> & H). inv_match H. inv_match H. apply end_inv in H as [-> _].
        exists w1, w2. rename H0 into F3. apply not_nl_any in F3.
        apply hl_more; auto.
      + rewrite m_eps in H. inv_match H. inv_match H. apply end_inv in H as [-> _].
        rename H0 into F3. apply not_nl_any in F3. destruct (split_first TAB x) as [NT|(u & v & -> & NT)].
        * exists w1, (w2 ++ x). rewrite (app_assoc w2). apply hl_stamp; auto.
          -- destruct w2; [congruence|discriminate].
          -- intros I. apply in_app_or in I as [I|I]; auto.
        * exists w1, (w2 ++ u).
          replace (w2 ++ (u ++ TAB :: v) ++ [NL]) with ((w2 ++ u) ++ TAB :: v ++ [NL]) by (rewrite <- !app_assoc; reflexivity).
          apply hl_more; auto.
          -- destruct w2; [congruence|discriminate].
          -- intros I. apply in_app_or in I as [I|I]; auto.
          -- intros I. apply F3. apply in_or_app. right. right. exact I.
    - rewrite m_eps in H. inv_match H. apply end_inv in H as [-> _]. exists w1, []. now apply hl_name. }
  destruct E as (p & t & HL). destruct (header_line_match _ _ _ _ HL) as (c' & M & C1 & C2 & C4).
  rewrite H in M. injection M as <-. subst. auto.
Qed.
Lemma no_header_line mark l : full_match (unified_header mark) l = None <-> forall p t, ~ header_line (lit mark) l p t.
Proof.
  split.
  - intros H p t HL. apply header_line_match in HL as (c & M & _). congruence.
  - intros H. destruct (full_match _ l) as [c|] eqn:E; [|reflexivity].
    apply match_header_line in E as [E _]. exfalso. eapply H; eauto.
Qed.

(** * The names of a new model *)
Lemma last_index_none x s : last_index_of x s = None <-> ~ In x s.
Proof.
  induction s as [|y s IH]; cbn [last_index_of]; [split; auto; intros _ []|].
  destruct (last_index_of x s) as [i|].
  - split; [discriminate|]. intros H. exfalso. apply H. right. destruct (in_dec N.eq_dec x s); auto. exfalso.
    assert (@None nat = None) by reflexivity. destruct IH as [_ IH]. specialize (IH n). discriminate.
  - destruct (N.eqb_spec x y) as [->|NE].
    + split; [discriminate|]. intros H. exfalso. apply H. left. reflexivity.
    + split; auto. intros _ [E|E]; [congruence|]. now apply IH.
Qed.
Lemma last_index_some x s : forall i, last_index_of x s = Some i ->
  exists u v, s = u ++ x :: v /\ ~ In x v /\ i = length u.
Proof.
  induction s as [|y s IH]; intros i; cbn [last_index_of]; [discriminate|].
  destruct (last_index_of x s) as [j|] eqn:E.
  - intros H; injection H as <-. destruct (IH _ eq_refl) as (u & v & -> & N & ->). exists (y :: u), v. auto.
  - destruct (N.eqb_spec x y) as [->|NE]; [|discriminate]. intros H; injection H as <-.
    exists [], s. repeat split. now apply last_index_none.
Qed.
Lemma cut_mid (u v : str) : cut_at_slash (u ++ SLASH :: v) (mid (u ++ SLASH :: v) 0 (length u + 1))
   (mid (u ++ SLASH :: v) (length u + 1) (length (u ++ SLASH :: v) - length u)) <-> ~ In SLASH v.
Proof.
  replace (u ++ SLASH :: v) with ((u ++ [SLASH]) ++ v) by (rewrite <- app_assoc; reflexivity).
  unfold mid. replace (length u + 1)%nat with (length (u ++ [SLASH])) by (rewrite app_length; reflexivity).
  rewrite skipn_O, firstn_app, firstn_all, Nat.sub_diag, firstn_O, app_nil_r.
  rewrite skipn_app_len. rewrite firstn_all2 by (rewrite !app_length; cbn; lia).
  split; [intros [_ H _]; exact H|]. intros H. split; eauto.
Qed.
Lemma new_model_named s d : forall m, m = new_model s d ->
  dm_source m = s /\ dm_destination m = d /\ cut_at_slash s (dm_spath m) (dm_sfile m) /\
  cut_at_slash d (dm_dpath m) (dm_dfile m) /\ contents m [] /\ dm_sts m = [] /\ dm_dts m = [] /\ dm_srev m = [] /\ dm_drev m = [].
Proof.
  intros m ->. unfold new_model, split_source, split_destination. cbn [with_names dm_source dm_destination dm_spath dm_dpath dm_sfile dm_dfile].
  assert (K : forall p, ~ In SLASH p -> cut_at_slash p [] p) by (intros p N; split; auto).
  destruct (last_index_of SLASH s) as [i|] eqn:E1; destruct (last_index_of SLASH d) as [j|] eqn:E2;
   cbn [with_names dm_source dm_destination dm_spath dm_dpath dm_sfile dm_dfile] in *; rewrite E2;
   cbn [with_names dm_source dm_destination dm_spath dm_dpath dm_sfile dm_dfile];
   try (apply last_index_some in E1 as (u & v & -> & NV & ->)); try (apply last_index_some in E2 as (u' & v' & -> & NV' & ->));
   try apply last_index_none in E1; try apply last_index_none in E2;
   (split; [reflexivity|]); (split; [reflexivity|]);
   (split; [first [now apply cut_mid|now apply K]|]); (split; [first [now apply cut_mid|now apply K]|]);
   (split; [|auto]); (split; [split|]); cbn; auto; constructor.
Qed.

Lemma unified_head_ok ls : match unified_diff_header ls with
  | Ok (Some m, rest) => exists skip hd, ls = skip ++ hd ++ rest /\ Forall (fun l => ~ unified_start l) skip /\ unified_heading hd m /\ contents m []
  | Ok (None, rest) =>
      Forall (fun l => ~ unified_start l) ls \/
      exists skip l rest, ls = skip ++ l :: rest /\ Forall (fun l => ~ unified_start l) skip /\ unified_start l /\
        (forall hd tl m, l :: rest = hd ++ tl -> ~ unified_heading hd m)
  | _ => True
  end.
Proof.
  induction ls as [|l ls IH]; cbn [unified_diff_header]; [left; constructor|].
  destruct (full_match unified_header1 l) as [c1|] eqn:E1.
  - apply match_header_line in E1 as [H1 C41]. destruct ls as [|l2 ls2]; [exact I|].
    destruct (full_match unified_header2 l2) as [c2|] eqn:E2.
    + apply match_header_line in E2 as [H2 C42]. exists [], [l; l2]. split; [reflexivity|]. split; [constructor|].
      destruct (new_model_named (unescape_path (captured 1 c1)) (unescape_path (captured 1 c2)) _ eq_refl)
        as (A1 & A2 & A3 & A4 & A5 & A6 & A7 & A8 & A9).
      rewrite C41, C42. split.
      * eapply uh_intro; eauto. split; auto.
      * destruct A5 as [[B1 B2 B3 B4 B6 B7] B5]. split; [split|]; auto.
    + right. exists [], l, (l2 :: ls2). split; [reflexivity|]. split; [constructor|]. split; [exists (captured 1 c1), (captured 2 c1); exact H1|].
      intros hd tl m E H. destruct H as [a p1 t1 b p2 t2 m Ha Hb _]. cbn in E. injection E as -> -> _.
      exact (proj1 (no_header_line "+++ " _) E2 _ _ Hb).
  - assert (NS : ~ unified_start l).
    { intros (p & t & H). apply (proj1 (no_header_line "--- " l) E1 p t H). }
    destruct (unified_diff_header ls) as [[[m|] rest]| |]; auto.
    + destruct IH as (skip & hd & -> & F & H & C). exists (l :: skip), hd. auto.
    + destruct IH as [F|(skip & l' & rest' & -> & F & H)]; [left; auto|].
      right. exists (l :: skip), l', rest'. auto.
Qed.

(** * Perforce *)
Section L.
Context {R : Type}.
Implicit Types (k : str -> caps -> option R) (s : str) (c : caps) (r : R).
Lemma i_lazy p k s c r : matches (RStar false (RChr p)) k s c = Some r ->
  exists w rest, s = w ++ rest /\ forallb p w = true /\ k rest c = Some r /\
    (forall u v, s = u ++ v -> (length u < length w)%nat -> k v c = None).
Proof.
  revert r. induction s as [|x s IH]; intros r; rewrite m_lazy_chr.
  - destruct (k [] c) as [r'|] eqn:E; [|discriminate]. intros H; injection H as <-.
    exists [], []. repeat split; auto. cbn; intros; lia.
  - destruct (k (x :: s) c) as [r'|] eqn:E.
    + intros H; injection H as <-. exists [], (x :: s). repeat split; auto. cbn; intros; lia.
    + destruct (p x) eqn:P; [|discriminate]. intros H. apply IH in H as (w & rest & -> & F & K & M).
      exists (x :: w), rest. cbn [forallb]. rewrite P. repeat split; auto.
      intros [|y u] v EQ L; cbn [app] in EQ; [subst v; exact E|]. injection EQ as <- EQ.
      apply (M u v EQ). cbn in L. lia.
Qed.
Lemma s_lazy p k w rest c r : forallb p w = true -> k rest c = Some r ->
  matches (RStar false (RChr p)) k (w ++ rest) c <> None.
Proof.
  intros F K. induction w as [|x w IH]; cbn [app]; rewrite m_lazy_chr.
  - rewrite K. discriminate.
  - destruct (k (x :: w ++ rest) c); [discriminate|]. cbn in F. apply andb_prop in F as [-> F]. auto.
Qed.
End L.

Definition p4_tail : re := RGroup 2 (RStar false any) ~~ T " ====" ~~ nl.
Lemma p4_tail_match d c : ~ In NL d ->
  matches p4_tail kend (d ++ lit " ====" ++ [NL]) c <> None.
Proof.
  intros N. unfold p4_tail. rewrite m_seq, m_group. unfold any. eapply s_lazy; [now apply not_nl_any|].
  rewrite m_seq. unfold T. rewrite s_text. unfold nl. rewrite s_is. reflexivity.
Qed.
Lemma p4_tail_inv s c c' : matches p4_tail kend s c = Some c' ->
  exists d, s = d ++ lit " ====" ++ [NL] /\ ~ In NL d /\ c' = (2%nat, d) :: c.
Proof.
  unfold p4_tail. rewrite m_seq, m_group. intros H. unfold any in H. apply i_lazy in H as (d & rest & -> & F & H & _).
  rewrite group_text in H. inv_match H. inv_match H. apply end_inv in H as [-> ->]. exists d. repeat split.
  now apply not_nl_any.
Qed.
Lemma perforce_match l : match full_match perforce_header l with
  | Some c => perforce_line l (captured 1 c) (captured 2 c)
  | None => ~ perforce_start l
  end.
Proof.
  destruct (full_match perforce_header l) as [c|] eqn:E.
  - unfold full_match, perforce_header in E. inv_match E. rewrite m_seq, m_group in E. unfold any in E at 1.
    apply i_lazy in E as (s & rest & -> & F & E & M). rewrite group_text in E.
    apply not_nl_any in F. fold p4_tail in *.
    change (matches (T " - " ~~ p4_tail) kend rest [(1%nat, s)] = Some c) in E.
    inv_match E. apply p4_tail_inv in E as (d & -> & ND & ->). cbn [captured Nat.eqb].
    apply pl_intro; auto. intros u v EQ. destruct (Nat.le_gt_cases (length s) (length u)); [assumption|]. exfalso.
    assert (NV : ~ In NL v).
    { intros I. assert (In NL (u ++ lit " - " ++ v)) by (apply in_or_app; right; apply in_or_app; right; exact I).
      rewrite <- EQ in H0. repeat (apply in_app_or in H0 as [H0|H0]; auto). cbn in H0. intuition discriminate. }
    specialize (M u (lit " - " ++ v ++ lit " ====" ++ [NL])).
    assert (matches (T " - " ~~ p4_tail) kend (lit " - " ++ v ++ lit " ====" ++ [NL])
       [(1%nat, firstn (length (s ++ lit " - " ++ d ++ lit " ====" ++ [NL]) - length (lit " - " ++ v ++ lit " ====" ++ [NL])) (s ++ lit " - " ++ d ++ lit " ====" ++ [NL]))] = None).
    { apply M; [|assumption].
      change (s ++ lit " - " ++ d ++ lit " ====" ++ [NL] = u ++ lit " - " ++ v ++ lit " ====" ++ [NL]).
      replace (s ++ lit " - " ++ d ++ lit " ====" ++ [NL]) with ((s ++ lit " - " ++ d) ++ lit " ====" ++ [NL]) by (rewrite <- !app_assoc; reflexivity).
      rewrite EQ. rewrite <- !app_assoc. reflexivity. }
    rewrite m_seq in H0. unfold T in H0. rewrite s_text in H0. exact (p4_tail_match v _ NV H0).
  - intros (s & d & H). destruct H as [s d NS ND _]. revert E. unfold full_match, perforce_header. fold p4_tail.
    rewrite m_seq. unfold T at 1. rewrite s_text, m_seq, m_group. unfold any at 1.
    destruct (matches p4_tail kend (d ++ lit " ====" ++ [NL]) [(1%nat, s)]) as [r|] eqn:ET; [|exfalso; eapply p4_tail_match; eauto].
    intros E. revert E. apply s_lazy with (r := r); [now apply not_nl_any|]. rewrite group_text, m_seq. unfold T. rewrite s_text. exact ET.
Qed.

Lemma s_plus_end (R : Type) p (k : str -> caps -> option R) w c r : w <> [] -> forallb p w = true -> k [] c = Some r ->
  matches (plus (RChr p)) k w c = Some r.
Proof. intros N F K. pose proof (s_plus_longest p k w [] c r N F I K) as H. now rewrite app_nil_r in H. Qed.
Lemma source_name_match s : match full_match perforce_source_file s with
  | Some c => revisioned true s (captured 1 c)
  | None => forall n, ~ revisioned true s n
  end.
Proof.
  destruct (full_match perforce_source_file s) as [c|] eqn:E.
  - unfold full_match, perforce_source_file in E. rewrite m_seq, m_group in E. unfold not_chr in E.
    apply i_plus in E as (n & rest & -> & N1 & F1 & E). rewrite group_text in E. apply not_chr_any in F1.
    inv_match E. inv_match E. apply end_inv in E as [-> ->]. cbn [captured Nat.eqb].
    exists x0. rewrite app_nil_r. repeat split; auto.
  - intros n (k & -> & N & NH & D & NK). specialize (NK eq_refl). revert E.
    unfold full_match, perforce_source_file. rewrite m_seq, m_group. unfold not_chr.
    erewrite s_plus_longest; [discriminate|auto|now apply not_chr_any|reflexivity|].
    rewrite group_text, m_seq. cbn [lit app]. change (lit "#" ++ k) with (HASH :: k). rewrite s_is, m_group. unfold digits, digit.
    erewrite s_plus_end; [reflexivity|auto|auto|]. reflexivity.
Qed.
Lemma destination_name_match s : match full_match perforce_destination_file s with
  | Some c => revisioned false s (captured 1 c)
  | None => forall n, ~ revisioned false s n
  end.
Proof.
  destruct (full_match perforce_destination_file s) as [c|] eqn:E.
  - unfold full_match, perforce_destination_file in E. rewrite m_seq, m_group in E. unfold not_chr in E.
    apply i_plus in E as (n & rest & -> & N1 & F1 & E). rewrite group_text in E. apply not_chr_any in F1.
    inv_match E. rewrite m_group in E. apply i_alt in E as [E|[_ E]].
    + rewrite m_eps in E. apply end_inv in E as [-> ->]. exists []. cbn. repeat split; auto. discriminate.
    + inv_match E. apply end_inv in E as [-> ->]. cbn [captured Nat.eqb].
      exists x0. rewrite app_nil_r. repeat split; auto.
  - intros n (k & -> & N & NH & D & _). revert E.
    unfold full_match, perforce_destination_file. rewrite m_seq, m_group. unfold not_chr.
    destruct k as [|x k].
    + erewrite s_plus_longest; [discriminate|auto|now apply not_chr_any|reflexivity|].
      rewrite group_text, m_seq. change (lit "#" ++ []) with [HASH]. rewrite s_is, m_group, m_alt, m_eps. reflexivity.
    + erewrite s_plus_longest; [discriminate|auto|now apply not_chr_any|reflexivity|].
      rewrite group_text, m_seq. change (lit "#" ++ x :: k) with (HASH :: x :: k). rewrite s_is, m_group, m_alt, m_eps. unfold digits, digit.
      erewrite s_plus_end; [reflexivity|discriminate|auto|]. reflexivity.
Qed.
Lemma set_files_named s d m : m = set_destination_file d (set_source_file s (new_model [] [])) ->
  named m s d [] [] /\ contents m [].
Proof.
  intros ->. assert (E : set_destination_file d (set_source_file s (new_model [] [])) = new_model s d).
  { replace (new_model [] []) with empty_model by reflexivity. unfold new_model, set_source_file, set_destination_file.
    unfold split_source. cbn [with_names dm_source]. destruct (last_index_of SLASH s); cbn [with_names dm_source dm_destination];
      unfold split_destination; cbn [with_names dm_destination]; destruct (last_index_of SLASH d); reflexivity. }
  rewrite E. destruct (new_model_named s d _ eq_refl) as (A1 & A2 & A3 & A4 & A5 & A6 & A7 & A8 & A9).
  split; [split; auto|exact A5].
Qed.
Lemma perforce_head_ok ls : match perforce_diff_header ls with
  | (Some m, rest) => exists skip hd, ls = skip ++ hd ++ rest /\ Forall (fun l => ~ perforce_start l) skip /\ perforce_heading hd m /\ contents m []
  | (None, rest) => Forall (fun l => ~ perforce_start l) ls
  end.
Proof.
  induction ls as [|l ls IH]; cbn [perforce_diff_header]; [constructor|].
  pose proof (perforce_match l) as M. destruct (full_match perforce_header l) as [c|] eqn:E.
  - exists [], [l]. split; [reflexivity|]. split; [constructor|].
    edestruct set_files_named as [N C]; [reflexivity|]. split; [|exact C].
    eapply ph_intro; [exact M| | |exact N].
    + pose proof (source_name_match (captured 1 c)) as H. destruct (full_match perforce_source_file _); [left; exact H|right; auto].
    + pose proof (destination_name_match (captured 2 c)) as H. destruct (full_match perforce_destination_file _); [left; exact H|right; auto].
  - destruct (perforce_diff_header ls) as [[m|] rest].
    + destruct IH as (skip & hd & -> & F & H & C). exists (l :: skip), hd. auto.
    + constructor; auto.
Qed.
