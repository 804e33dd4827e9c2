(** Proofs about blending. *)
From Verif Require Import Base QtStr Diff Parser SpecPatch SpecParse PHistory PEditLines PUnifiedDoc Blend SpecBlend.
Local Open Scope Z_scope.

Definition more_lines (ls : list str) (d : difference) : difference :=
  set_lines (d_slines d ++ map new_ds ls) (d_dlines d ++ map new_ds ls) d.
Lemma more_cons l ls d : more_lines ls (add_destination_line l (add_source_line l d)) = more_lines (l :: ls) d.
Proof. unfold more_lines, set_lines, add_destination_line, add_source_line. cbn. now rewrite <- !app_assoc. Qed.
Lemma more_nil d : more_lines [] d = d.
Proof. unfold more_lines, set_lines. cbn. rewrite !app_nil_r. now destruct d. Qed.
Lemma blend_rest_spec ls : forall d, blend_rest ls d = more_lines ls d.
Proof. induction ls as [|l ls IH]; intros d; cbn [blend_rest]; [now rewrite more_nil|]. now rewrite IH, more_cons. Qed.
Lemma blend_while_spec limit : forall ls src dst d,
  exists taken rest, ls = taken ++ rest /\ (src <= limit -> src + count taken <= limit) /\
    (src <= limit -> rest = [] \/ src + count taken = limit) /\ (limit <= src -> taken = []) /\
    blend_while limit src dst ls d = (src + count taken, dst + count taken, rest, more_lines taken d).
Proof.
  induction ls as [|l ls IH]; intros src dst d; cbn [blend_while].
  - exists [], []. rewrite more_nil. unfold count. cbn. rewrite !Z.add_0_r. repeat split; auto.
  - destruct (Z.ltb_spec src limit) as [L|L].
    + destruct (IH (src + 1) (dst + 1) (add_destination_line l (add_source_line l d))) as (t & r & E & B & C & D & F).
      exists (l :: t), r. rewrite F, more_cons, E. unfold count in *. cbn [length]. rewrite Nat2Z.inj_succ.
      split; [reflexivity|]. split; [intros; specialize (B ltac:(lia)); lia|].
      split; [intros; destruct (C ltac:(lia)); [auto|right; lia]|]. split; [lia|].
      replace (src + Z.succ (Z.of_nat (length t))) with (src + 1 + Z.of_nat (length t)) by lia.
      replace (dst + Z.succ (Z.of_nat (length t))) with (dst + 1 + Z.of_nat (length t)) by lia. reflexivity.
    + exists [], (l :: ls). rewrite more_nil. unfold count. cbn [length]. rewrite !Z.add_0_r.
      split; [reflexivity|]. split; [lia|]. split; [intros; right; lia|]. split; reflexivity.
Qed.
Lemma lines_new ls : lines_of (map new_ds ls) = ls.
Proof. unfold lines_of. rewrite map_map. cbn. apply map_id. Qed.
Lemma old_one d : old_lines [d] = lines_of (d_slines d). Proof. unfold old_lines. cbn. apply app_nil_r. Qed.
Lemma new_one d : new_lines [d] = lines_of (d_dlines d). Proof. unfold new_lines. cbn. apply app_nil_r. Qed.
Lemma old_cons d ds : old_lines (d :: ds) = lines_of (d_slines d) ++ old_lines ds. Proof. reflexivity. Qed.
Lemma new_cons d ds : new_lines (d :: ds) = lines_of (d_dlines d) ++ new_lines ds. Proof. reflexivity. Qed.
Lemma old_app a b : old_lines (a ++ b) = old_lines a ++ old_lines b. Proof. unfold old_lines. now rewrite map_app, concat_app. Qed.
Lemma new_app a b : new_lines (a ++ b) = new_lines a ++ new_lines b. Proof. unfold new_lines. now rewrite map_app, concat_app. Qed.
Lemma count_lines l : count (lines_of l) = count l. Proof. unfold count, lines_of. now rewrite map_length. Qed.
Lemma count_app {A} (a b : list A) : count (a ++ b) = count a + count b. Proof. unfold count. rewrite app_length. lia. Qed.
Lemma fold_add {A} (f : A -> Z) l : forall n, fold_left (fun n d => n + f d) l n = n + fold_left (fun n d => n + f d) l 0.
Proof. induction l as [|x l IH]; intros n; cbn; [lia|]. rewrite IH, (IH (f x)). lia. Qed.
Lemma sum_slc_count ds : sum_slc ds = count (old_lines ds).
Proof.
  unfold sum_slc. induction ds as [|d ds IH]; [reflexivity|]. cbn [fold_left]. rewrite fold_add, IH, old_cons, count_app, count_lines.
  unfold slc, count. lia.
Qed.
Lemma sum_dlc_count ds : sum_dlc ds = count (new_lines ds).
Proof.
  unfold sum_dlc. induction ds as [|d ds IH]; [reflexivity|]. cbn [fold_left]. rewrite fold_add, IH, new_cons, count_app, count_lines.
  unfold dlc, count. lia.
Qed.
(** An added hunk. *)
Definition added (i : nat) (src dst : Z) (ls : list str) : filled :=
  (mk_hunk src dst [] HAddedByBlend [i], [more_lines ls (new_diff src dst Unchanged)]).
Lemma added_common i s t ls : common (added i s t ls).
Proof. eexists. split; [reflexivity|]. cbn. unfold pristine. cbn. repeat split; reflexivity. Qed.
Lemma added_old i s t ls : old_lines (snd (added i s t ls)) = ls.
Proof. cbn [snd added]. rewrite old_one. cbn. apply lines_new. Qed.
Lemma added_new i s t ls : new_lines (snd (added i s t ls)) = ls.
Proof. cbn [snd added]. rewrite new_one. cbn. apply lines_new. Qed.
Lemma added_standing i s t ls : standing s t (snd (added i s t ls)).
Proof. cbn. auto. Qed.
Lemma gapless_added i s t ls X : gapless (s + count ls) (t + count ls) X -> gapless s t (added i s t ls :: X).
Proof.
  intros G. change (gapless s t (added i s t ls :: X)) with
    (s = s /\ t = t /\ standing s t (snd (added i s t ls)) /\
     gapless (s + count (old_lines (snd (added i s t ls)))) (t + count (new_lines (snd (added i s t ls)))) X).
  rewrite added_old, added_new. split; [reflexivity|]. split; [reflexivity|]. split; [apply added_standing|exact G].
Qed.
Lemma deref_last st d : deref_all (st ++ [d]) [length st] = Ok [d].
Proof. cbn [deref_all]. unfold deref. rewrite nth_error_app2, Nat.sub_diag by lia. reflexivity. Qed.

Definition resolved (st : list difference) (hs : list filled) : Prop :=
  Forall (fun p => deref_all st (h_diffs (fst p)) = Ok (snd p)) hs.
Lemma resolved_grow st more hs : resolved st hs -> resolved (st ++ more) hs.
Proof. apply Forall_impl. intros p. apply deref_all_grow. Qed.

(** Any file. *)
Lemma blend_hunks_any : forall hs st src dst lines, resolved st hs ->
  exists out more s t tail used, blend_hunks st src dst lines (map fst hs) = Ok (map fst out, st ++ more, s, t, tail) /\
    resolved (st ++ more) out /\ lines = used ++ tail /\
    forall last, tail = old_lines (concat (map snd last)) -> filled_in tail [] last -> filled_in lines hs (out ++ last).
Proof.
  induction hs as [|[h ds] hs IH]; intros st src dst lines R.
  - exists [], [], src, dst, lines, []. cbn [blend_hunks map]. rewrite app_nil_r. split; [reflexivity|]. split; [constructor|]. split; [reflexivity|]. intros last _ F. exact F.
  - pose proof R as R0. inversion_clear R as [|? ? R1 R2]. cbn [fst snd] in R1. cbn [map blend_hunks fst].
    assert (K : forall st1 src1 dst1 lines1 (before : list filled), deref_all st1 (h_diffs h) = Ok ds -> resolved st1 hs ->
      exists out more s t tail used,
        (do ds <- deref_all st1 (h_diffs h);
         do r <- blend_hunks st1 (src1 + sum_slc ds) (dst1 + sum_dlc ds) (skipn (Z.to_nat (sum_slc ds)) lines1) (map fst hs);
         (let '(out, st, src, dst, lines) := r in Ok (map fst before ++ h :: out, st, src, dst, lines)))
        = Ok (map fst before ++ h :: map fst out, st1 ++ more, s, t, tail) /\
        resolved (st1 ++ more) out /\ lines1 = used ++ tail /\
        forall last, tail = old_lines (concat (map snd last)) -> filled_in tail [] last -> filled_in lines1 ((h, ds) :: hs) ((h, ds) :: out ++ last)).
    { intros st1 src1 dst1 lines1 before D1 D2. rewrite D1. cbn [bind].
      destruct (IH st1 (src1 + sum_slc ds) (dst1 + sum_dlc ds) (skipn (Z.to_nat (sum_slc ds)) lines1) D2) as (out & more & s & t & tail & used & E & RR & U & F).
      exists out, more, s, t, tail, (firstn (Z.to_nat (sum_slc ds)) lines1 ++ used). rewrite E. cbn [bind].
      split; [reflexivity|]. split; [exact RR|]. split; [rewrite <- app_assoc, <- U; symmetry; apply firstn_skipn|].
      intros last T1 T2. rewrite <- (firstn_skipn (Z.to_nat (sum_slc ds)) lines1) at 1. constructor; [|exact (F last T1 T2)].
      cbn [snd]. rewrite sum_slc_count. unfold count. rewrite Nat2Z.id.
      destruct (Nat.le_gt_cases (length (old_lines ds)) (length lines1)) as [L|L].
      - left. apply firstn_length_le. exact L.
      - right. split; [rewrite firstn_length; lia|]. apply skipn_all2. lia. }
    destruct (Z.ltb src (h_src h)) eqn:L.
    + destruct (blend_while_spec (h_src h) lines src dst (new_diff src dst Unchanged)) as (tk & rs & E & _ & _ & _ & F). rewrite F.
      destruct (K (st ++ [more_lines tk (new_diff src dst Unchanged)]) (src + count tk) (dst + count tk) rs [added (length st) src dst tk]) as (out & more & s & t & tail & used & E2 & RR & U & G).
      { now apply deref_all_grow. } { now apply resolved_grow. }
      exists (added (length st) src dst tk :: (h, ds) :: out), (more_lines tk (new_diff src dst Unchanged) :: more), s, t, tail, (tk ++ used).
      replace (st ++ more_lines tk (new_diff src dst Unchanged) :: more) with ((st ++ [more_lines tk (new_diff src dst Unchanged)]) ++ more)
        by (now rewrite <- app_assoc).
      split; [exact E2|]. split.
      { repeat constructor.
        - apply deref_all_grow. apply deref_last.
        - apply deref_all_grow, deref_all_grow. exact R1.
        - exact RR. }
      split; [now rewrite E, U, app_assoc|].
      intros last T1 T2. rewrite E.
      pose proof (fi_add (added (length st) src dst tk) rs _ _ eq_refl (added_common _ _ _ _) (G last T1 T2)) as X.
      rewrite added_old in X. exact X.
    + destruct (K st src dst lines [] R1 R2) as (out & more & s & t & tail & used & E2 & RR & U & G).
      exists ((h, ds) :: out), more, s, t, tail, used. split; [exact E2|]. split.
      { constructor; [|exact RR]. now apply deref_all_grow. }
      split; [exact U|]. exact G.
Qed.

(** A file that the hunks fit. *)
Lemma blend_hunks_fit : forall s t A B hs, turns s t A B hs -> forall st, resolved st hs ->
  exists out more s' t' tail, blend_hunks st s t A (map fst hs) = Ok (map fst out, st ++ more, s', t', tail) /\
    old_lines (concat (map snd out)) ++ tail = A /\ new_lines (concat (map snd out)) ++ tail = B /\
    s' = s + count (old_lines (concat (map snd out))) /\ t' = t + count (new_lines (concat (map snd out))) /\
    resolved (st ++ more) out /\
    (forall last, gapless s' t' last -> gapless s t (out ++ last)).
Proof.
  induction 1 as [s t same|s t same A B h ds hs E1 E2 CO T IH]; intros st R.
  - exists [], [], s, t, same. cbn [blend_hunks map concat]. unfold old_lines, new_lines. cbn. rewrite app_nil_r. unfold count. cbn.
    repeat split; auto; lia.
  - inversion_clear R as [|? ? R1 R2]. cbn [fst snd] in R1. cbn [map blend_hunks fst].
    assert (SK : forall X : list str, skipn (Z.to_nat (sum_slc ds)) (old_lines ds ++ X) = X).
    { intros X. rewrite sum_slc_count. unfold count. rewrite Nat2Z.id, skipn_app, skipn_all, Nat.sub_diag. reflexivity. }
    destruct (Z.ltb_spec s (h_src h)) as [L|L].
    + destruct (blend_while_spec (h_src h) (same ++ old_lines ds ++ A) s t (new_diff s t Unchanged)) as (tk & rs & E & B1 & B2 & _ & F). rewrite F.
      specialize (B1 ltac:(lia)). specialize (B2 ltac:(lia)).
      assert (EQ : tk = same /\ rs = old_lines ds ++ A).
      { assert (LE : length tk = length same).
        { assert (count tk <= count same) by lia. destruct B2 as [->|B2]; [|unfold count in *; lia].
          rewrite app_nil_r in E. subst tk. unfold count in *. rewrite app_length in *. lia. }
        apply app_eq_app in E. destruct E as (w & [[EA EB]|[EA EB]]).
        - assert (w = []) by (rewrite EA, app_length in LE; destruct w; [reflexivity|cbn in LE; unfold str, chr in *; lia]). subst w.
          rewrite app_nil_r in EA. cbn in EB. now subst.
        - assert (w = []) by (rewrite EA, app_length in LE; destruct w; [reflexivity|cbn in LE; unfold str, chr in *; lia]). subst w.
          rewrite app_nil_r in EA. cbn in EB. now subst. }
      destruct EQ as [-> ->]. clear E B1 B2 F.
      set (nd := more_lines same (new_diff s t Unchanged)).
      rewrite (deref_all_grow _ _ _ [nd] R1). cbn [bind]. rewrite SK, sum_slc_count, sum_dlc_count, <- E1, <- E2.
      destruct (IH (st ++ [nd]) (resolved_grow _ _ _ R2)) as (out & more & s' & t' & tail & EE & OA & OB & S1 & T1 & RR & G).
      rewrite EE. cbn [bind]. exists (added (length st) s t same :: (h, ds) :: out), (nd :: more), s', t', tail.
      replace (st ++ nd :: more) with ((st ++ [nd]) ++ more) by (now rewrite <- app_assoc).
      split; [reflexivity|]. cbn [map concat snd]. rewrite !old_app, !new_app, added_old, added_new, !count_app.
      split; [now rewrite <- OA, <- !app_assoc|]. split; [now rewrite <- OB, <- !app_assoc|].
      split; [lia|]. split; [lia|]. split.
      { repeat constructor.
        - apply deref_all_grow. apply deref_last.
        - apply deref_all_grow, deref_all_grow. exact R1.
        - exact RR. }
      intros last GL. cbn [app]. apply gapless_added. rewrite <- E1, <- E2. cbn [gapless]. auto.
    + assert (same = []) by (destruct same; [reflexivity|unfold count in *; cbn [length] in *; lia]). subst same.
      rewrite R1. cbn [bind app]. unfold count in E1, E2. cbn [length Z.of_nat] in E1, E2. rewrite Z.add_0_r in E1, E2.
      rewrite SK, sum_slc_count, sum_dlc_count, <- E1, <- E2.
      destruct (IH st R2) as (out & more & s' & t' & tail & EE & OA & OB & S1 & T1 & RR & G).
      rewrite EE. cbn [bind]. exists ((h, ds) :: out), more, s', t', tail.
      split; [reflexivity|]. cbn [map concat snd]. rewrite !old_app, !new_app, !count_app.
      split; [now rewrite <- OA, <- !app_assoc|]. split; [now rewrite <- OB, <- !app_assoc|].
      split; [lia|]. split; [lia|]. split; [constructor; [now apply deref_all_grow|exact RR]|].
      intros last GL. cbn [app gapless]. auto.
Qed.

(** What blending adds. *)
Definition all_ids (hs : list filled) : list nat := concat (map (fun p => h_diffs (fst p)) hs).
Definition all_diffs (hs : list filled) : list difference := concat (map snd hs).
Lemma nodup_app_iff {A} (a b : list A) : NoDup (a ++ b) <-> NoDup a /\ NoDup b /\ (forall x, In x a -> ~ In x b).
Proof.
  induction a as [|x a IH]; cbn; split.
  - intros H. repeat split; auto. constructor.
  - tauto.
  - intros H. inversion_clear H as [|? ? N R]. apply IH in R as (R1 & R2 & R3). split; [constructor; [rewrite in_app_iff in N; tauto|exact R1]|].
    split; [exact R2|]. intros y [<-|I] J; [apply N; rewrite in_app_iff; tauto|exact (R3 y I J)].
  - intros (H1 & H2 & H3). inversion_clear H1 as [|? ? N R]. constructor.
    + rewrite in_app_iff. intros [I|I]; [tauto|]. exact (H3 x (or_introl eq_refl) I).
    + apply IH. repeat split; auto.
Qed.
(** [grown st hs out]: [out] has the hunks [hs] and others, whose objects are new, each in one place. *)
Inductive grown (n : nat) : nat -> list filled -> list filled -> Prop :=
| gr_end k : (n <= k)%nat -> grown n k [] []
| gr_keep k p hs out : grown n k hs out -> grown n k (p :: hs) (p :: out)
| gr_add k s t ls hs out : (n <= k)%nat -> grown n (S k) hs out -> grown n k hs (added k s t ls :: out).
Lemma grown_ids n : forall k hs out, grown n k hs out -> (forall i, In i (all_ids hs) -> (i < n)%nat) ->
  forall i, In i (all_ids out) -> In i (all_ids hs) \/ (k <= i)%nat.
Proof.
  unfold all_ids. induction 1 as [k L|k p hs out G IH|k s t ls hs out L G IH]; intros B i.
  - intros [].
  - cbn. rewrite !in_app_iff. intros [I|I]; [auto|]. destruct (IH (fun j J => B j ltac:(cbn; rewrite in_app_iff; tauto)) i I); auto.
  - cbn. intros [<-|I]; [auto|]. destruct (IH B i I); [auto|right; lia].
Qed.
Lemma grown_nodup n : forall k hs out, grown n k hs out -> (forall i, In i (all_ids hs) -> (i < n)%nat) ->
  NoDup (all_ids hs) -> NoDup (all_ids out).
Proof.
  induction 1 as [k L|k p hs out G IH|k s t ls hs out L G IH]; intros B N; [exact N| |].
  - unfold all_ids in *. cbn in *. apply nodup_app_iff in N as (N1 & N2 & N3). apply nodup_app_iff. split; [exact N1|]. split.
    { apply IH; [intros j J; apply B; rewrite in_app_iff; tauto|exact N2]. }
    intros i I J. apply (grown_ids _ _ _ _ G) in J.
    + destruct J as [J|J]; [exact (N3 i I J)|]. specialize (B i ltac:(rewrite in_app_iff; tauto)).
      assert (n <= k)%nat by (clear -G; induction G; auto). lia.
    + intros j Jn. apply B. rewrite in_app_iff. tauto.
  - unfold all_ids in *. cbn. constructor; [|apply IH; assumption].
    intros J. apply (grown_ids _ _ _ _ G B) in J as [J|J]; [specialize (B k J); lia|lia].
Qed.
Lemma grown_listed n k hs out : grown n k hs out -> concat (map listed_of out) = concat (map listed_of hs) /\
  filter (fun d => negb (is_context d)) (all_diffs out) = filter (fun d => negb (is_context d)) (all_diffs hs).
Proof.
  unfold all_diffs. induction 1 as [k L|k p hs out G [IH1 IH2]|k s t ls hs out L G [IH1 IH2]]; [auto| |].
  - cbn [map concat]. rewrite !filter_app, IH1, IH2. auto.
  - cbn [map concat added snd app filter is_context more_lines set_lines new_diff d_type negb]. unfold listed_of at 1. cbn. auto.
Qed.
Lemma blend_hunks_grown n : forall hs st src dst lines out st' s t tail, resolved st hs -> (n <= length st)%nat ->
  blend_hunks st src dst lines (map fst hs) = Ok (map fst out, st', s, t, tail) -> resolved st' out ->
  (exists more, st' = st ++ more) ->
  (forall last, grown n (length st') [] last -> grown n (length st) hs (out ++ last)).
Proof.
  induction hs as [|[h ds] hs IH]; intros st src dst lines out st' s t tail R L E RO (more & EM) last GL.
  - cbn in E. injection E as E1 E2 E3 E4 E5. destruct out; [|discriminate]. rewrite <- E2 in GL. exact GL.
  - inversion_clear R as [|? ? R1 R2]. cbn [fst snd] in R1. cbn [map fst blend_hunks] in E.
    destruct (Z.ltb src (h_src h)) eqn:B.
    + destruct (blend_while_spec (h_src h) lines src dst (new_diff src dst Unchanged)) as (tk & rs & _ & _ & _ & _ & F). rewrite F in E. clear F.
      set (nd := more_lines tk (new_diff src dst Unchanged)) in *.
      rewrite (deref_all_grow _ _ _ [nd] R1) in E. cbn [bind] in E.
      destruct (blend_hunks_any hs (st ++ [nd]) (src + count tk + sum_slc ds) (dst + count tk + sum_dlc ds) (skipn (Z.to_nat (sum_slc ds)) rs) (resolved_grow _ _ _ R2))
        as (out1 & more1 & s1 & t1 & tail1 & used1 & E1 & RR & _).
      rewrite E1 in E. cbn [bind app] in E. injection E as Eo Es _ _ _.
      destruct out as [|[o1 d1] [|[o2 d2] out]]; try discriminate. cbn in Eo. injection Eo as Eo1 Eo2 Eo3. subst o1 o2.
      pose proof RO as RO'. inversion_clear RO as [|? ? P1 RO1]. inversion_clear RO1 as [|? ? P2 RO2]. cbn [fst snd h_diffs] in P1, P2.
      assert (D1 : d1 = [nd]).
      { rewrite <- Es in P1. rewrite (deref_all_grow _ _ _ more1 (deref_last st nd)) in P1. now injection P1. }
      assert (D2 : d2 = ds).
      { rewrite <- Es, <- app_assoc in P2. rewrite (deref_all_grow _ _ _ ([nd] ++ more1) R1) in P2. now injection P2. }
      subst d1 d2. cbn [app]. change (mk_hunk src dst [] HAddedByBlend [length st], [nd]) with (added (length st) src dst tk).
      apply gr_add; [exact L|]. apply gr_keep. replace (S (length st)) with (length (st ++ [nd])) by (rewrite app_length; cbn; lia).
      eapply (IH (st ++ [nd]) _ _ _ out st'); [now apply resolved_grow|rewrite app_length; lia| |exact RO2| |exact GL].
      * rewrite E1, <- Eo3, <- Es. reflexivity.
      * exists more1. now symmetry.
    + rewrite R1 in E. cbn [bind] in E.
      destruct (blend_hunks_any hs st (src + sum_slc ds) (dst + sum_dlc ds) (skipn (Z.to_nat (sum_slc ds)) lines) R2)
        as (out1 & more1 & s1 & t1 & tail1 & used1 & E1 & RR & _).
      rewrite E1 in E. cbn [bind app] in E. injection E as Eo Es _ _ _.
      destruct out as [|[o2 d2] out]; try discriminate. cbn in Eo. injection Eo as Eo2 Eo3. subst o2.
      inversion_clear RO as [|? ? P2 RO2]. cbn [fst snd h_diffs] in P2.
      assert (D2 : d2 = ds).
      { rewrite <- Es in P2. rewrite (deref_all_grow _ _ _ more1 R1) in P2. now injection P2. }
      subst d2. cbn [app]. apply gr_keep.
      eapply (IH st _ _ _ out st'); [exact R2|exact L| |exact RO2|exists more1; now symmetry|exact GL].
      rewrite E1, <- Eo3, <- Es. reflexivity.
Qed.
Lemma resolved_unique st : forall a b, resolved st a -> resolved st b -> map fst a = map fst b -> a = b.
Proof.
  induction a as [|[h d] a IH]; intros [|[h' d'] b] A B E; try discriminate; [reflexivity|].
  inversion_clear A as [|? ? A1 A2]. inversion_clear B as [|? ? B1 B2]. cbn [map fst snd] in *. injection E as <- E.
  rewrite A1 in B1. injection B1 as <-. now rewrite (IH b A2 B2 E).
Qed.
Lemma resolved_lt st hs : resolved st hs -> forall i, In i (all_ids hs) -> (i < length st)%nat.
Proof.
  intros R i I. unfold all_ids in I. apply in_concat in I as (l & Hl & I). apply in_map_iff in Hl as (q & <- & Hq).
  unfold resolved in R. rewrite Forall_forall in R. eapply deref_all_lt; [exact (R q Hq)|exact I].
Qed.
Lemma blend_ok m hs text : links m hs ->
  exists mb out more, blend_file m text = Ok mb /\ dm_store mb = dm_store m ++ more /\ links mb out /\
    filled_in (split_lines text) hs out /\ same_but_hunks m mb /\ dm_blended mb = true /\
    forall B, turns 1 1 (split_lines text) B hs ->
      old_lines (all_diffs out) = split_lines text /\ new_lines (all_diffs out) = B /\ gapless 1 1 out.
Proof.
  intros [L1 L2 L3 L4 L5 L6]. set (A := split_lines text). set (st := dm_store m).
  assert (R : resolved st hs) by exact L2.
  destruct (blend_hunks_any hs st 1 1 A R) as (out & more & s & t & tail & used & E & RR & U & FI).
  assert (G : forall last, grown (length st) (length (st ++ more)) [] last -> grown (length st) (length st) hs (out ++ last)).
  { eapply blend_hunks_grown; [exact R|lia|exact E|exact RR|eauto]. }
  assert (FIT : forall B, turns 1 1 A B hs -> old_lines (all_diffs out) ++ tail = A /\ new_lines (all_diffs out) ++ tail = B /\
      (forall last, gapless s t last -> gapless 1 1 (out ++ last))).
  { intros B T. destruct (blend_hunks_fit _ _ _ _ _ T st R) as (out' & more' & s' & t' & tail' & E' & OA & OB & S1 & T1 & RR' & GL).
    rewrite E in E'. injection E' as X1 X2 X3 X4 X5.
    assert (more' = more) by (apply app_inv_head in X2; congruence). subst more' s' t' tail'.
    assert (out' = out) by (eapply resolved_unique; eauto). subst out'. auto. }
  unfold blend_file. cbn [with_blended dm_store dm_hunks dm_diffs]. fold st A. rewrite L1, E. cbn [bind].
  set (m1 := with_contents (with_blended m true) (map fst out) (dm_diffs m) (st ++ more)).
  assert (IB : forall i, In i (all_ids hs) -> (i < length st)%nat) by now apply resolved_lt.
  assert (LK : forall last more2, grown (length st) (length (st ++ more)) [] last -> resolved (st ++ more ++ more2) last ->
    links (with_contents (with_blended m true) (map fst (out ++ last)) (dm_diffs m) (st ++ more ++ more2)) (out ++ last)).
  { intros last more2 GL RL. specialize (G last GL). destruct (grown_listed _ _ _ _ G) as [G1 G2].
    split; cbn [with_contents with_blended dm_hunks dm_diffs dm_store].
    - reflexivity.
    - apply Forall_app. split; [|exact RL]. rewrite app_assoc. now apply resolved_grow.
    - unfold all_diffs in G2. rewrite G2. now apply deref_all_grow.
    - exact L4.
    - now rewrite L5, G1.
    - exact (grown_nodup _ _ _ _ G IB L6). }
  assert (N0 : grown (length st) (length (st ++ more)) [] []) by (constructor; rewrite app_length; lia).
  destruct tail as [|l ls].
  - exists m1, out, more. split; [reflexivity|]. split; [reflexivity|]. split.
    { specialize (LK [] [] N0 (Forall_nil _)). rewrite !app_nil_r in LK. exact LK. }
    split. { specialize (FI [] eq_refl fi_end). rewrite app_nil_r in FI. exact FI. }
    split; [reflexivity|]. split; [reflexivity|].
    intros B T. destruct (FIT B T) as (A1 & A2 & A3). rewrite !app_nil_r in A1, A2. split; [exact A1|]. split; [exact A2|].
    specialize (A3 [] I). now rewrite app_nil_r in A3.
  - rewrite blend_rest_spec. unfold alloc_diff. cbn [with_store].
    set (nd := more_lines (l :: ls) (new_diff s t Unchanged)). set (k := length (dm_store m1)).
    exists (add_hunk (with_store m1 (dm_store m1 ++ [nd])) (mk_hunk s t [] HAddedByBlend [k])), (out ++ [added k s t (l :: ls)]), (more ++ [nd]).
    split; [reflexivity|]. split; [cbn; now rewrite app_assoc|].
    assert (GK : grown (length st) (length (st ++ more)) [] [added k s t (l :: ls)]).
    { change k with (length (st ++ more)). apply gr_add; [rewrite app_length; lia|]. constructor. rewrite app_length. lia. }
    split.
    { specialize (LK [added k s t (l :: ls)] [nd] GK). rewrite map_app in LK. cbn [map] in LK.
      unfold add_hunk, with_store. cbn. rewrite <- app_assoc. apply LK.
      constructor; [|constructor]. cbn [added fst snd h_diffs]. change k with (length (st ++ more)). rewrite app_assoc. apply deref_last. }
    split.
    { apply FI; [cbn [map concat]; now rewrite app_nil_r, added_old|].
      pose proof (fi_add (added k s t (l :: ls)) [] [] [] eq_refl (added_common _ _ _ _) fi_end) as X.
      rewrite added_old, app_nil_r in X. exact X. }
    split; [reflexivity|]. split; [reflexivity|].
    intros B T. destruct (FIT B T) as (A1 & A2 & A3). unfold all_diffs in *. rewrite map_app, concat_app, old_app, new_app.
    cbn [map concat]. rewrite !app_nil_r, added_old, added_new. split; [exact A1|]. split; [exact A2|].
    apply A3. apply gapless_added. exact I.
Qed.
