(** The list of models refines the view. *)
From Coq Require Import String Permutation.
From Verif Require Import Base QtStr Diff Save Parser SpecHistory SpecPatch SpecParse Blend SpecBlend Info ModelList SpecList PHistory PModelState.
Local Open Scope Z_scope.

Definition tidy (s : mlist) (l : list nat) (fs : list (list bool * list bool)) : Prop :=
  ml_models s = Some l /\ NoDup l /\
  Forall2 (fun m f => exists x, model_of s m = Ok x /\ model_state x (fst f) (snd f)) l fs.
Lemma Forall2_at {A B} (R : A -> B -> Prop) l l' i a : Forall2 R l l' -> nth_error l i = Some a -> exists b, nth_error l' i = Some b /\ R a b.
Proof. intros F. revert i. induction F; intros [|i] E; cbn in *; try discriminate; [injection E as ->; eauto|eauto]. Qed.
Lemma Forall2_at' {A B} (R : A -> B -> Prop) l l' i b : Forall2 R l l' -> nth_error l' i = Some b -> exists a, nth_error l i = Some a /\ R a b.
Proof. intros F. revert i. induction F; intros [|i] E; cbn in *; try discriminate; [injection E as ->; eauto|eauto]. Qed.
Lemma Forall2_len {A B} (R : A -> B -> Prop) l l' : Forall2 R l l' -> length l = length l'.
Proof. induction 1; cbn; congruence. Qed.
Lemma model_put s m x y : model_of s m = Ok y -> model_of (put_model s m x) m = Ok x.
Proof.
  unfold model_of, put_model. cbn. intros E. destruct (nth_error (ml_heap s) m) eqn:N; [|discriminate]. rewrite nth_update_same; [reflexivity|]. eapply nth_some_lt; exact N.
Qed.
Lemma model_put_other s m x m' : m <> m' -> model_of (put_model s m x) m' = model_of s m'.
Proof. intros N. unfold model_of, put_model. cbn. now rewrite nth_update_other by exact N. Qed.
Lemma tidy_ext s s' l fs : ml_heap s' = ml_heap s -> ml_models s' = ml_models s -> tidy s l fs -> tidy s' l fs.
Proof.
  intros H M (T1 & T2 & T3). split; [congruence|]. split; [exact T2|].
  clear -T3 H. induction T3 as [|m f l fs (x & E & MS) _ IH]; constructor; [|exact IH]. exists x. unfold model_of in *. now rewrite H.
Qed.
Lemma tidy_put s l fs i m x now saved : tidy s l fs -> nth_error l i = Some m -> model_state x now saved ->
  tidy (put_model s m x) l (update fs i (now, saved)).
Proof.
  intros (T1 & T2 & T3) N M. split; [exact T1|]. split; [exact T2|]. clear T1. revert i fs T3 N.
  induction l as [|m' l IH]; intros [|i] fs F E; cbn in E; try discriminate; inversion F as [|? ? ? ? (y & Y1 & Y2) F']; subst; inversion T2 as [|? ? NI ND]; subst; cbn [update].
  - injection E as <-. constructor; [exists x; split; [eapply model_put; exact Y1|exact M]|].
    clear -F' NI. induction F' as [|a f l fs (z & Z1 & Z2) _ IH]; constructor.
    + exists z. split; [|exact Z2]. rewrite model_put_other; [exact Z1|]. intros ->. apply NI. now left.
    + apply IH. intros I. apply NI. now right.
  - constructor.
    + exists y. split; [|exact Y2]. rewrite model_put_other; [exact Y1|]. intros ->. apply NI. eapply nth_error_In; exact E.
    + apply IH; assumption.
Qed.
Lemma tidy_same s l fs i m x f : tidy s l fs -> nth_error l i = Some m -> nth_error fs i = Some f -> model_state x (fst f) (snd f) -> tidy (put_model s m x) l fs.
Proof.
  intros T N F M. replace fs with (update fs i (fst f, snd f)); [now apply tidy_put|]. apply update_same_value. rewrite F. now destruct f.
Qed.
Lemma tidy_at s l fs i m : tidy s l fs -> nth_error l i = Some m -> exists x f, model_of s m = Ok x /\ nth_error fs i = Some f /\ model_state x (fst f) (snd f).
Proof. intros (_ & _ & T) N. destruct (Forall2_at _ _ _ _ _ T N) as (f & F & x & E & M). eauto 10. Qed.
Lemma tidy_len s l fs : tidy s l fs -> length l = length fs.
Proof. intros (_ & _ & T). eapply Forall2_len; exact T. Qed.

(** The i-th model is the selected one. *)
Definition at_model (s : mlist) (l : list nat) (i : nat) (m : nat) : Prop :=
  nth_error l i = Some m /\ ml_sel s = Some m /\ ml_index s = Z.of_nat i.
(** The k-th difference of it is the selected one. *)
Definition at_diff (s : mlist) (m k : nat) : Prop :=
  exists x d, model_of s m = Ok x /\ dm_index x = Z.of_nat k /\ dm_sel x = Some d /\ nth_error (dm_diffs x) k = Some d /\ ml_diff s = Some (m, d).
Lemma shows_split s v : shows s v <-> ml_rw s = v_rw v /\ exists l m, tidy s l (v_flags v) /\ at_model s l (v_model v) m /\ at_diff s m (v_diff v).
Proof.
  split.
  - intros [R I (l & M & ND & F & m & x & d & N & S & E & IX & SE & ND' & D)]. split; [exact R|]. exists l, m. split; [split; auto|]. split; [split; auto|]. exists x, d. auto.
  - intros (R & l & m & (M & ND & F) & (N & S & I) & (x & d & E & IX & SE & ND' & D)). split; auto. exists l. split; [auto|]. split; [auto|]. split; [auto|]. exists m, x, d. auto 10.
Qed.
Lemma at_model_ext s s' l i m : ml_sel s' = ml_sel s -> ml_index s' = ml_index s -> at_model s l i m -> at_model s' l i m.
Proof. intros H1 H2 (A & B & C). repeat split; congruence. Qed.
Lemma at_diff_ext s s' m k : ml_heap s' = ml_heap s -> ml_diff s' = ml_diff s -> at_diff s m k -> at_diff s' m k.
Proof. intros H1 H2 (x & d & E & R). exists x, d. unfold model_of in *. rewrite H1, H2. auto. Qed.
Lemma shows_ext s s' v : ml_heap s' = ml_heap s -> ml_models s' = ml_models s -> ml_sel s' = ml_sel s -> ml_diff s' = ml_diff s ->
  ml_index s' = ml_index s -> ml_rw s' = ml_rw s -> shows s v -> shows s' v.
Proof.
  intros H1 H2 H3 H4 H5 H6 S. apply shows_split in S as (R & l & m & T & A & D). apply shows_split. split; [congruence|].
  exists l, m. split; [eapply tidy_ext; eauto|]. split; [eapply at_model_ext; eauto|]. eapply at_diff_ext; eauto.
Qed.
Lemma shows_emit s v g : shows s v -> shows (emit g s) v. Proof. now apply shows_ext. Qed.
Lemma shows_act s v a : shows s v -> shows (with_act s a) v. Proof. now apply shows_ext. Qed.

(** * What is read off *)
Record facts (s : mlist) (v : view) (l : list nat) (m : nat) (x : dmodel) (d : nat) (f : list bool * list bool) (y : difference) : Prop := {
  fa_tidy : tidy s l (v_flags v);
  fa_at : at_model s l (v_model v) m;
  fa_model : model_of s m = Ok x;
  fa_index : dm_index x = Z.of_nat (v_diff v);
  fa_sel : dm_sel x = Some d;
  fa_nth : nth_error (dm_diffs x) (v_diff v) = Some d;
  fa_diff : ml_diff s = Some (m, d);
  fa_flags : nth_error (v_flags v) (v_model v) = Some f;
  fa_state : model_state x (fst f) (snd f);
  fa_now : now_of v (v_model v) = fst f;
  fa_saved : saved_of v (v_model v) = snd f;
  fa_deref : deref (dm_store x) d = Ok y;
  fa_applied : nth_error (fst f) (v_diff v) = Some (d_applied y) }.
Lemma shows_facts s v : shows s v -> exists l m x d f y, facts s v l m x d f y.
Proof.
  intros S. apply shows_split in S as (R & l & m & T & A & x & d & E & IX & SE & ND & D).
  destruct (tidy_at _ _ _ _ _ T (proj1 A)) as (x' & f & E' & F & M). rewrite E in E'. injection E' as <-.
  destruct (ms_diff _ _ _ _ _ M ND) as (y & DY & AY & _). exists l, m, x, d, f, y. split; auto.
  - unfold now_of. now rewrite F.
  - unfold saved_of. now rewrite F.
Qed.
Lemma selected_ok s m x : ml_sel s = Some m -> model_of s m = Ok x -> selected s = Ok (m, x).
Proof. intros H1 H2. unfold selected. now rewrite H1, H2. Qed.
Lemma facts_selected s v l m x d f y : facts s v l m x d f y -> selected s = Ok (m, x).
Proof. intros F. apply selected_ok; apply F. Qed.
Lemma facts_len s v l m x d f y : facts s v l m x d f y -> length (dm_diffs x) = size_of v (v_model v).
Proof. intros F. unfold size_of. rewrite (fa_now _ _ _ _ _ _ _ _ F). eapply ms_len. apply F. Qed.
Lemma facts_range s v l m x d f y : facts s v l m x d f y -> (v_model v < length (v_flags v))%nat /\ (v_diff v < size_of v (v_model v))%nat.
Proof.
  intros F. split; [apply nth_error_Some; rewrite (fa_flags _ _ _ _ _ _ _ _ F); discriminate|].
  rewrite <- (facts_len _ _ _ _ _ _ _ _ F). apply nth_error_Some. rewrite (fa_nth _ _ _ _ _ _ _ _ F). discriminate.
Qed.
Lemma index_in_nodup l i m : NoDup l -> nth_error l i = Some m -> index_in (Some m) l = Z.of_nat i.
Proof. intros N E. unfold index_in. now rewrite (find_id_nodup _ _ _ N E). Qed.
Lemma index_of_diff_at m x d k : NoDup (dm_diffs x) -> nth_error (dm_diffs x) k = Some d -> index_of_diff m x (Some (m, d)) = Z.of_nat k.
Proof. intros N E. unfold index_of_diff. rewrite Nat.eqb_refl. now apply index_in_nodup. Qed.
Lemma any_unsaved_ok s l fs : Forall2 (fun m f => exists x, model_of s m = Ok x /\ model_state x (fst f) (snd f)) l fs -> any_unsaved s l = Ok (existsb unsaved_flags fs).
Proof.
  induction 1 as [|m f l fs (x & E & M) _ IH]; [reflexivity|]. cbn [any_unsaved existsb]. rewrite E. cbn [bind]. rewrite (unsaved_iff _ _ _ M). cbn [bind].
  rewrite <- surjective_pairing. destruct (unsaved_flags f); [reflexivity|exact IH].
Qed.
Lemma observed_ok s v : shows s v -> observed s v.
Proof.
  intros S. destruct (shows_facts s v S) as (l & m & x & d & f & y & F). pose proof F as [T A E IX SE ND D FL M NO SA DE AP]. destruct T as (T1 & T2 & T3). destruct A as (A1 & A2 & A3).
  assert (NDD := ms_nodup _ _ _ M). split.
  - unfold current_model, find_model, the_list. rewrite T1, A2. cbn [bind]. now rewrite (index_in_nodup _ _ _ T2 A1).
  - unfold current_difference. rewrite A2, E. cbn [bind]. rewrite D. now rewrite (index_of_diff_at _ _ _ _ NDD ND).
  - unfold model_count. rewrite T1. now rewrite (Forall2_len _ _ _ T3).
  - unfold difference_count. rewrite A2, E. cbn [bind]. now rewrite (facts_len _ _ _ _ _ _ _ _ F).
  - unfold applied_count. rewrite A2, E. cbn [bind]. rewrite (ms_count _ _ _ M). now rewrite NO.
  - unfold has_unsaved_changes. rewrite T1. now apply any_unsaved_ok.
  - eapply facts_range; exact F.
  - exists m, x, d, y. rewrite NO. auto 10.
Qed.

(** * Positions *)
Lemma sum_app a b : sum (a ++ b) = (sum a + sum b)%nat.
Proof. induction a; cbn; lia. Qed.
Lemma sum_pos l : Forall (fun n => 0 < n)%nat l -> (length l <= sum l)%nat.
Proof. induction 1; cbn; lia. Qed.
Lemma sum_split l i n : nth_error l i = Some n -> sum l = (sum (firstn i l) + n + sum (skipn (S i) l))%nat.
Proof. revert i. induction l as [|a l IH]; intros [|i] E; cbn in *; try discriminate; [injection E as ->; lia|]. rewrite (IH i E). cbn. lia. Qed.
Lemma sum_firstn_S l i n : nth_error l i = Some n -> sum (firstn (S i) l) = (sum (firstn i l) + n)%nat.
Proof. revert i. induction l as [|a l IH]; intros [|i] E; cbn [firstn nth_error sum] in *; try discriminate; [injection E as ->; lia|]. rewrite (IH i E). lia. Qed.
Lemma Forall_firstn' {A} (P : A -> Prop) l i : Forall P l -> Forall P (firstn i l).
Proof. intros F. revert i. induction F; intros [|i]; cbn; auto. Qed.
Lemma Forall_skipn' {A} (P : A -> Prop) l i : Forall P l -> Forall P (skipn i l).
Proof. intros F. revert i. induction F; intros [|i]; cbn; auto. Qed.
Lemma sizes_pos s l v : tidy s l (v_flags v) -> Forall (fun n => 0 < n)%nat (sizes v).
Proof.
  intros (_ & _ & T). unfold sizes. induction T as [|m f l fs (x & E & M) _ IH]; constructor; [|exact IH]. eapply ms_pos; exact M.
Qed.
Lemma nth_sizes v i f : nth_error (v_flags v) i = Some f -> nth_error (sizes v) i = Some (size_of v i).
Proof. intros E. unfold sizes, size_of, now_of. rewrite nth_error_map, E. reflexivity. Qed.
Lemma overall_first v : Forall (fun n => 0 < n)%nat (sizes v) -> (v_model v < length (v_flags v))%nat ->
  Nat.ltb 0 (overall v) = (Nat.ltb 0 (v_diff v) || Nat.ltb 0 (v_model v))%bool.
Proof.
  intros P L. unfold overall. assert (Q := sum_pos _ (Forall_firstn' _ _ (v_model v) P)). rewrite firstn_length in Q. unfold sizes in Q at 1. rewrite map_length in Q.
  destruct (v_model v) as [|i]; [cbn; destruct (v_diff v); reflexivity|].
  replace (Nat.ltb 0 (S i)) with true by reflexivity. rewrite orb_true_r. apply Nat.ltb_lt. lia.
Qed.
Lemma overall_last v : Forall (fun n => 0 < n)%nat (sizes v) -> (v_model v < length (v_flags v))%nat -> (v_diff v < size_of v (v_model v))%nat ->
  Nat.ltb (S (overall v)) (total_of v) = (Nat.ltb (S (v_diff v)) (size_of v (v_model v)) || Nat.ltb (S (v_model v)) (length (v_flags v)))%bool.
Proof.
  intros P L D. destruct (nth_error_Some_lt _ _ L) as [f F]. assert (N := nth_sizes _ _ _ F). unfold overall, total_of. rewrite (sum_split _ _ _ N).
  assert (Q := sum_pos _ (Forall_skipn' _ _ (S (v_model v)) P)). rewrite skipn_length in Q. unfold sizes in Q at 1. rewrite map_length in Q.
  assert (Z : (v_model v + 1 = length (v_flags v))%nat -> skipn (S (v_model v)) (sizes v) = []).
  { intros E. apply skipn_all2. unfold sizes. rewrite map_length. lia. }
  destruct (Nat.ltb_spec (S (v_diff v)) (size_of v (v_model v))); cbn [orb]; [apply Nat.ltb_lt; lia|].
  destruct (Nat.ltb_spec (S (v_model v)) (length (v_flags v))); [apply Nat.ltb_lt; lia|]. apply Nat.ltb_ge. rewrite Z by lia. cbn [sum]. lia.
Qed.
Lemma count_all l : negb (Z.eqb (count_true l) (Z.of_nat (length l))) = something false l.
Proof.
  assert (B : forall l, count_true l <= Z.of_nat (length l)) by (intros k; induction k as [|b k IH]; cbn [count_true length]; [lia|destruct b; lia]).
  induction l as [|b l IH]; [reflexivity|]. cbn [count_true length something existsb]. fold (something false l). rewrite <- IH. specialize (B l). destruct b; cbn [Bool.eqb orb].
  - f_equal. destruct (Z.eqb_spec (1 + count_true l) (Z.of_nat (S (length l)))), (Z.eqb_spec (count_true l) (Z.of_nat (length l))); try reflexivity; lia.
  - destruct (Z.eqb_spec (0 + count_true l) (Z.of_nat (S (length l)))); [lia|reflexivity].
Qed.
Lemma count_none l : negb (Z.eqb (count_true l) 0) = something true l.
Proof.
  assert (B : forall l, 0 <= count_true l) by (intros k; induction k as [|b k IH]; cbn [count_true]; [lia|destruct b; lia]).
  induction l as [|b l IH]; [reflexivity|]. cbn [count_true something existsb]. fold (something true l). rewrite <- IH. specialize (B l). destruct b; cbn [Bool.eqb orb].
  - destruct (Z.eqb_spec (1 + count_true l) 0); [lia|reflexivity].
  - reflexivity.
Qed.
Lemma of_nat_ltb a b : Z.ltb (Z.of_nat a) (Z.of_nat b) = Nat.ltb a b.
Proof. destruct (Z.ltb_spec (Z.of_nat a) (Z.of_nat b)), (Nat.ltb_spec a b); try reflexivity; lia. Qed.

(** * Actions and announcements *)
Lemma nth_of_error {A} (l : list A) k a b : nth_error l k = Some a -> nth k l b = a.
Proof. revert k. induction l; intros [|k] E; cbn in *; try discriminate; [congruence|eauto]. Qed.
Lemma update_actions_ok s v : shows s v -> exists a, update_actions s = Ok (with_act s a) /\ actions_right (with_act s a) v.
Proof.
  intros SH. destruct (shows_facts s v SH) as (l & m & x & d & f & y & F). pose proof F as [T A E IX SE ND D FL M NO SA DE AP].
  destruct (facts_range _ _ _ _ _ _ _ _ F) as [R1 R2]. assert (LX := facts_len _ _ _ _ _ _ _ _ F). assert (SP := sizes_pos _ _ _ T).
  assert (LF := tidy_len _ _ _ T). assert (SX := facts_selected _ _ _ _ _ _ _ _ F). destruct T as (T1 & T2 & T3). destruct A as (A1 & A2 & A3).
  assert (NM : has_next_model s = Ok (Nat.ltb (S (v_model v)) (length (v_flags v)))).
  { unfold has_next_model, the_list. rewrite T1. cbn [bind]. rewrite A3, LF. f_equal.
    destruct (Z.ltb_spec (Z.of_nat (v_model v)) (Z.of_nat (length (v_flags v)) - 1)), (Nat.ltb_spec (S (v_model v)) (length (v_flags v))); try reflexivity; lia. }
  assert (PM : has_prev_model s = Nat.ltb 0 (v_model v)).
  { unfold has_prev_model. rewrite A3. change 0 with (Z.of_nat 0). apply of_nat_ltb. }
  assert (PD : has_prev_diff s = Ok (Nat.ltb 0 (overall v))).
  { unfold has_prev_diff. rewrite SX. cbn [bind snd]. rewrite IX, PM, (overall_first v SP R1). change (Z.ltb 0 (Z.of_nat (v_diff v))) with (Z.ltb (Z.of_nat 0) (Z.of_nat (v_diff v))). rewrite of_nat_ltb.
    destruct (Nat.ltb 0 (v_diff v)); reflexivity. }
  assert (NX : has_next_diff s = Ok (Nat.ltb (S (overall v)) (total_of v))).
  { unfold has_next_diff. rewrite SX. cbn [bind snd]. rewrite IX, NM, LX, (overall_last v SP R1 R2).
    destruct (Z.ltb_spec (Z.of_nat (v_diff v)) (Z.of_nat (size_of v (v_model v)) - 1)), (Nat.ltb_spec (S (v_diff v)) (size_of v (v_model v))); try reflexivity; lia. }
  unfold update_actions. rewrite T1, A2, D.
  destruct (ml_has_save s) eqn:HS.
  - destruct (ml_rw s) eqn:RW.
    + rewrite SX. cbn [bind snd]. unfold difference_of. rewrite E. cbn [bind]. rewrite DE. cbn [bind]. rewrite (unsaved_iff _ _ _ M). cbn [bind].
      rewrite NM, PD, NX. cbn [bind ac_apply ac_unapply ac_apply_all ac_unapply_all ac_save]. eexists. split; [reflexivity|].
      assert (VR : v_rw v = true) by (destruct SH as [SR _ _]; congruence).
      split; cbn [with_act ml_act ac_apply ac_unapply ac_apply_all ac_unapply_all ac_save ac_previous_file ac_next_file ac_previous ac_next]; intros; rewrite ?VR, ?andb_true_l, ?NO, ?SA; auto.
      * now rewrite (nth_of_error _ _ _ true AP).
      * now rewrite (nth_of_error _ _ _ false AP).
      * rewrite (ms_count _ _ _ M), (ms_len _ _ _ M). apply count_all.
      * rewrite (ms_count _ _ _ M). apply count_none.
    + cbn [bind]. rewrite NM, PD, NX. cbn [bind]. eexists. split; [reflexivity|].
      assert (VR : v_rw v = false) by (destruct SH as [SR _ _]; congruence).
      split; cbn; intros; rewrite ?VR; auto.
  - cbn [bind]. rewrite NM, PD, NX. cbn [bind]. eexists. split; [reflexivity|].
    split; cbn [with_act ml_act ac_apply ac_unapply ac_apply_all ac_unapply_all ac_save ac_previous_file ac_next_file ac_previous ac_next ml_has_save]; intros; congruence || auto.
Qed.
Lemma status_bar_ok s v : shows s v -> status_bar s = Ok (emit (bar_of v) s).
Proof.
  intros S. pose proof (observed_ok s v S) as [O1 O2 O3 O4 O5 O6 O7 (m & x & d & y & Q1 & Q2 & Q3 & Q4 & Q5 & Q6)].
  unfold status_bar. unfold current_model in O1. rewrite O1. cbn [bind]. rewrite (selected_ok _ _ _ Q1 Q2). cbn [bind]. rewrite O4. cbn [bind]. unfold bar_of. do 2 f_equal.
  unfold current_difference in O2. rewrite Q1, Q2 in O2. cbn [bind] in O2. injection O2 as O2. unfold applied_count in O5. rewrite Q1, Q2 in O5. cbn [bind] in O5. injection O5 as O5. now rewrite O2, O3, O5.
Qed.
(** The announcement of a selection: a selection signal, the status bar, the actions. *)
Lemma told_ok g s v : shows s v -> exists a, (do s <- status_bar (emit g s); update_actions s) = Ok (with_act (emit (bar_of v) (emit g s)) a) /\
  actions_right (with_act (emit (bar_of v) (emit g s)) a) v /\ shows (with_act (emit (bar_of v) (emit g s)) a) v.
Proof.
  intros S. rewrite (status_bar_ok (emit g s) v) by (now apply shows_emit). cbn [bind].
  destruct (update_actions_ok (emit (bar_of v) (emit g s)) v) as (a & E & A); [now apply shows_emit, shows_emit|].
  exists a. split; [exact E|]. split; [exact A|]. apply shows_act. now apply shows_emit, shows_emit.
Qed.

(** * Moving *)
Lemma go_ok s l fs i m x f k d : tidy s l fs -> at_model s l i m -> model_of s m = Ok x -> nth_error fs i = Some f -> model_state x (fst f) (snd f) ->
  nth_error (dm_diffs x) k = Some d ->
  tidy (with_diff (put_model s m (with_selection x (Z.of_nat k) (Some d))) (Some (m, d))) l fs /\
  at_model (with_diff (put_model s m (with_selection x (Z.of_nat k) (Some d))) (Some (m, d))) l i m /\
  at_diff (with_diff (put_model s m (with_selection x (Z.of_nat k) (Some d))) (Some (m, d))) m k.
Proof.
  intros T A E F M N. split; [|split].
  - eapply tidy_ext; [reflexivity|reflexivity|]. eapply tidy_same; [exact T|apply A|exact F|]. apply ms_select; [exact M|].
    intros d' ED. injection ED as <-. split; [lia|]. now rewrite Nat2Z.id.
  - exact A.
  - exists (with_selection x (Z.of_nat k) (Some d)), d. split; [|split; [|split; [|split]]].
    + change (model_of (put_model s m (with_selection x (Z.of_nat k) (Some d))) m = Ok (with_selection x (Z.of_nat k) (Some d))). eapply model_put; exact E.
    + reflexivity.
    + reflexivity.
    + exact N.
    + reflexivity.
Qed.
Lemma diff_at_nth x k d : nth_error (dm_diffs x) k = Some d -> diff_at x (Z.of_nat k) = Ok d.
Proof. intros E. unfold diff_at. destruct (Z.ltb_spec (Z.of_nat k) 0); [lia|]. now rewrite Nat2Z.id, E. Qed.
Definition quiet (s s' : mlist) : Prop := ml_rw s' = ml_rw s /\ ml_has_save s' = ml_has_save s /\ ml_out s' = ml_out s.
Lemma to_first_ok s l fs i m : tidy s l fs -> at_model s l i m ->
  exists s', to_first_difference s = Ok s' /\ tidy s' l fs /\ at_model s' l i m /\ at_diff s' m 0 /\ quiet s s'.
Proof.
  intros T A. destruct (tidy_at _ _ _ _ _ T (proj1 A)) as (x & f & E & F & M). unfold to_first_difference. rewrite (selected_ok s m x) by (apply A || exact E). cbn [bind].
  unfold first_difference. destruct (ms_nth _ _ _ 0 M (ms_pos _ _ _ M)) as (d & N & DA). change (Z.of_nat 0) with 0 in DA. rewrite DA. cbn [bind].
  destruct (go_ok s l fs i m x f 0 d T A E F M N) as (G1 & G2 & G3). eexists. split; [reflexivity|]. repeat (split; [assumption|]). repeat split.
Qed.
Lemma to_last_ok s l fs i m f : tidy s l fs -> at_model s l i m -> nth_error fs i = Some f ->
  exists s', to_last_difference s = Ok s' /\ tidy s' l fs /\ at_model s' l i m /\ at_diff s' m (length (fst f) - 1) /\ quiet s s'.
Proof.
  intros T A F0. destruct (tidy_at _ _ _ _ _ T (proj1 A)) as (x & f' & E & F & M). rewrite F0 in F. injection F as <-. unfold to_last_difference. rewrite (selected_ok s m x) by (apply A || exact E). cbn [bind].
  assert (P := ms_pos _ _ _ M). assert (L := ms_len _ _ _ M).
  unfold last_difference. destruct (ms_nth _ _ _ (length (fst f) - 1) M) as (d & N & DA); [lia|]. replace (Z.of_nat (length (dm_diffs x)) - 1) with (Z.of_nat (length (fst f) - 1)) by lia. rewrite DA. cbn [bind].
  destruct (go_ok s l fs i m x f _ d T A E F0 M N) as (G1 & G2 & G3). eexists. split; [reflexivity|]. repeat (split; [assumption|]). repeat split.
Qed.
Definition moved (s s' : mlist) (v v' : view) : Prop :=
  shows s' v' /\ actions_right s' v' /\ ml_has_save s' = ml_has_save s /\
  exists g, ml_out s' = ml_out s ++ [g; bar_of v'] /\ (g = SetSelection (ml_sel s') (ml_diff s') \/ g = SetSelectionOf (ml_diff s') /\ v_model v' = v_model v).
Lemma announce_ok s s0 v v' : shows s v' -> ml_has_save s = ml_has_save s0 -> ml_out s = ml_out s0 -> exists s', announce s = Ok s' /\ moved s0 s' v v'.
Proof.
  intros S H1 H2. destruct (told_ok (SetSelection (ml_sel s) (ml_diff s)) s v' S) as (a & E & A & S'). eexists. split; [exact E|].
  split; [exact S'|]. split; [exact A|]. split; [exact H1|]. eexists. split; [|left; reflexivity]. cbn. rewrite H2, <- app_assoc. reflexivity.
Qed.
Lemma announce_difference_ok s s0 v v' : shows s v' -> ml_has_save s = ml_has_save s0 -> ml_out s = ml_out s0 -> v_model v' = v_model v ->
  exists s', announce_difference s = Ok s' /\ moved s0 s' v v'.
Proof.
  intros S H1 H2 H3. destruct (told_ok (SetSelectionOf (ml_diff s)) s v' S) as (a & E & A & S'). eexists. split; [exact E|].
  split; [exact S'|]. split; [exact A|]. split; [exact H1|]. eexists. split; [|right; split; [reflexivity|exact H3]]. cbn. rewrite H2, <- app_assoc. reflexivity.
Qed.
Lemma shows_at s l v i m k : ml_rw s = v_rw v -> tidy s l (v_flags v) -> at_model s l i m -> at_diff s m k -> shows s (at_pos v i k).
Proof. intros R T A D. apply shows_split. split; [exact R|]. exists l, m. auto. Qed.
Lemma model_at_nth l i m : nth_error l i = Some m -> model_at l (Z.of_nat i) = Ok m.
Proof. intros E. unfold model_at. destruct (Z.ltb_spec (Z.of_nat i) 0); [lia|]. now rewrite Nat2Z.id, E. Qed.
Lemma next_model_ok s l fs i m : tidy s l fs -> at_model s l i m ->
  exists s', next_model s = Ok s' /\ tidy s' l fs /\ quiet s s' /\
    if Nat.ltb (S i) (length fs) then exists m', at_model s' l (S i) m' else ml_sel s' = None.
Proof.
  intros T (A1 & A2 & A3). unfold next_model, the_list. cbn [with_index ml_models]. rewrite (proj1 T). cbn [bind ml_index]. rewrite A3, (tidy_len _ _ _ T).
  replace (Z.of_nat i + 1) with (Z.of_nat (S i)) by lia. cbn [with_index ml_index]. rewrite of_nat_ltb. destruct (Nat.ltb_spec (S i) (length fs)) as [L|L].
  - rewrite <- (tidy_len _ _ _ T) in L. destruct (nth_error_Some_lt _ _ L) as [m' N]. rewrite (model_at_nth _ _ _ N). cbn [bind]. eexists. split; [reflexivity|].
    split; [eapply tidy_ext; [..|exact T]; reflexivity|]. split; [repeat split|]. exists m'. repeat split; auto.
  - eexists. split; [reflexivity|]. split; [eapply tidy_ext; [..|exact T]; reflexivity|]. split; [repeat split|]. reflexivity.
Qed.
Lemma prev_model_ok s l fs i m : tidy s l fs -> at_model s l i m ->
  exists s', prev_model s = Ok s' /\ tidy s' l fs /\ quiet s s' /\
    match i with S i' => exists m', at_model s' l i' m' | O => ml_sel s' = None end.
Proof.
  intros T (A1 & A2 & A3). unfold prev_model, the_list. rewrite A3. destruct i as [|i].
  - cbn. eexists. split; [reflexivity|]. split; [eapply tidy_ext; [..|exact T]; reflexivity|]. split; [repeat split|]. reflexivity.
  - destruct (Z.ltb_spec 0 (Z.of_nat (S i))); [|lia]. cbn [with_index ml_models]. rewrite (proj1 T). cbn [bind ml_index]. replace (Z.of_nat (S i) - 1) with (Z.of_nat i) by lia. cbn [with_index ml_index].
    assert (L : (i < length l)%nat) by (apply nth_some_lt in A1; lia). rewrite of_nat_ltb. destruct (Nat.ltb_spec i (length l)); [|lia].
    destruct (nth_error_Some_lt _ _ L) as [m' N]. rewrite (model_at_nth _ _ _ N). cbn [bind]. eexists. split; [reflexivity|].
    split; [eapply tidy_ext; [..|exact T]; reflexivity|]. split; [repeat split|]. exists m'. repeat split; auto.
Qed.
Lemma first_model_ok s l fs : tidy s l fs -> fs <> [] -> exists s' m, first_model s = Ok s' /\ tidy s' l fs /\ quiet s s' /\ at_model s' l 0 m.
Proof.
  intros T N. unfold first_model, the_list. cbn [with_index ml_models]. rewrite (proj1 T). cbn [bind]. assert (LE := tidy_len _ _ _ T). destruct l as [|m l]; [destruct fs; [congruence|discriminate]|].
  eexists _, m. split; [reflexivity|]. split; [eapply tidy_ext; [..|exact T]; reflexivity|]. split; [repeat split|]. repeat split.
Qed.
Lemma last_model_ok s l fs : tidy s l fs -> fs <> [] -> exists s' m, last_model s = Ok s' /\ tidy s' l fs /\ quiet s s' /\ at_model s' l (length fs - 1) m.
Proof.
  intros T N. unfold last_model, the_list. rewrite (proj1 T). cbn [bind]. assert (LE := tidy_len _ _ _ T).
  destruct (rev l) as [|m r] eqn:R; [apply (f_equal (@length nat)) in R; rewrite rev_length in R; destruct fs; [congruence|rewrite LE in R; discriminate]|].
  assert (EL : l = rev r ++ [m]) by (rewrite <- (rev_involutive l), R; reflexivity).
  eexists _, m. split; [reflexivity|]. split; [eapply tidy_ext; [..|exact T]; reflexivity|]. split; [repeat split|]. rewrite <- LE. repeat split.
  - rewrite EL, app_length. cbn [length]. replace (length (rev r) + 1 - 1)%nat with (length (rev r)) by lia. rewrite nth_error_app2 by lia. now rewrite Nat.sub_diag.
  - cbn. rewrite EL, app_length. cbn [length]. lia.
Qed.
Lemma quiet_trans a b c : quiet a b -> quiet b c -> quiet a c.
Proof. intros (A1 & A2 & A3) (B1 & B2 & B3). repeat split; congruence. Qed.
(** Deselecting in the model on the way out. *)
Lemma leave_ok s v l m x d f y : facts s v l m x d f y ->
  tidy (with_diff (put_model s m (with_selection x 0 None)) None) l (v_flags v) /\
  at_model (with_diff (put_model s m (with_selection x 0 None)) None) l (v_model v) m /\
  quiet s (with_diff (put_model s m (with_selection x 0 None)) None).
Proof.
  intros F. split; [|split].
  - eapply tidy_ext; [reflexivity|reflexivity|]. eapply tidy_same; [apply F|apply (fa_at _ _ _ _ _ _ _ _ F)|apply (fa_flags _ _ _ _ _ _ _ _ F)|]. apply ms_select; [apply F|discriminate].
  - apply (fa_at _ _ _ _ _ _ _ _ F).
  - repeat split.
Qed.
Lemma next_ok s v : shows s v -> exists s', slot_next_difference s = Ok s' /\ moved s s' v (next_pos v).
Proof.
  intros SH. destruct (shows_facts s v SH) as (l & m & x & d & f & y & F). assert (LX := facts_len _ _ _ _ _ _ _ _ F). destruct (facts_range _ _ _ _ _ _ _ _ F) as [R1 R2].
  assert (RW : ml_rw s = v_rw v) by (destruct SH; assumption). assert (NF : v_flags v <> []) by (destruct (v_flags v); [cbn in R1; lia|discriminate]).
  unfold slot_next_difference. rewrite (facts_selected _ _ _ _ _ _ _ _ F). cbn [bind]. unfold next_difference. rewrite (fa_index _ _ _ _ _ _ _ _ F), LX. unfold next_pos.
  replace (Z.of_nat (v_diff v) + 1) with (Z.of_nat (S (v_diff v))) by lia. rewrite of_nat_ltb. destruct (Nat.ltb_spec (S (v_diff v)) (size_of v (v_model v))) as [L|L].
  - rewrite <- LX in L. destruct (nth_error_Some_lt _ _ L) as [d' N]. rewrite (diff_at_nth _ _ _ N). cbn [bind].
    destruct (go_ok s l _ _ m x f _ d' (fa_tidy _ _ _ _ _ _ _ _ F) (fa_at _ _ _ _ _ _ _ _ F) (fa_model _ _ _ _ _ _ _ _ F) (fa_flags _ _ _ _ _ _ _ _ F) (fa_state _ _ _ _ _ _ _ _ F) N) as (G1 & G2 & G3).
    apply announce_difference_ok; [|reflexivity|reflexivity|reflexivity]. eapply shows_at; eauto.
  - cbn [bind]. destruct (leave_ok _ _ _ _ _ _ _ _ F) as (T & A & Q). destruct (next_model_ok _ _ _ _ _ T A) as (s1 & E1 & T1 & Q1 & C). rewrite E1. cbn [bind].
    destruct (Nat.ltb_spec (S (v_model v)) (length (v_flags v))) as [L2|L2].
    + destruct C as (m' & A'). rewrite (proj1 (proj2 A')). destruct (to_first_ok _ _ _ _ _ T1 A') as (s2 & E2 & T2 & A2 & D2 & Q2). rewrite E2. cbn [bind].
      destruct (quiet_trans _ _ _ (quiet_trans _ _ _ Q Q1) Q2) as (QA & QB & QC). apply announce_ok; [|exact QB|exact QC]. eapply shows_at; eauto; congruence.
    + rewrite C. destruct (last_model_ok _ _ _ T1 NF) as (s2 & m' & E2 & T2 & Q2 & A2). rewrite E2. cbn [bind]. destruct (nth_error_Some_lt (v_flags v) (length (v_flags v) - 1)%nat ltac:(lia)) as [f' F'].
      destruct (to_last_ok _ _ _ _ _ f' T2 A2 F') as (s3 & E3 & T3 & A3 & D3 & Q3). rewrite E3. cbn [bind].
      destruct (quiet_trans _ _ _ (quiet_trans _ _ _ Q Q1) (quiet_trans _ _ _ Q2 Q3)) as (QA & QB & QC). apply announce_ok; [|exact QB|exact QC].
      replace v with (at_pos v (length (v_flags v) - 1) (length (fst f') - 1)); [eapply shows_at; eauto; congruence|]. destruct v as [fl vm vd vr]. unfold at_pos. cbn in *.
      assert (EM : (length fl - 1 = vm)%nat) by lia. rewrite EM in *. f_equal. unfold size_of, now_of in L, R2. cbn in L, R2. rewrite F' in L, R2. lia.
Qed.
Lemma previous_ok s v : shows s v -> exists s', slot_previous_difference s = Ok s' /\ moved s s' v (previous_pos v).
Proof.
  intros SH. destruct (shows_facts s v SH) as (l & m & x & d & f & y & F). assert (LX := facts_len _ _ _ _ _ _ _ _ F). destruct (facts_range _ _ _ _ _ _ _ _ F) as [R1 R2].
  assert (RW : ml_rw s = v_rw v) by (destruct SH; assumption). assert (NF : v_flags v <> []) by (destruct (v_flags v); [cbn in R1; lia|discriminate]).
  unfold slot_previous_difference. rewrite (facts_selected _ _ _ _ _ _ _ _ F). cbn [bind]. unfold prev_difference. rewrite (fa_index _ _ _ _ _ _ _ _ F), LX. unfold previous_pos.
  destruct (v_diff v) as [|k] eqn:VD.
  - change (Z.ltb 0 (Z.of_nat 0)) with false. cbn [andb bind]. destruct (leave_ok _ _ _ _ _ _ _ _ F) as (T & A & Q). destruct (prev_model_ok _ _ _ _ _ T A) as (s1 & E1 & T1 & Q1 & C). rewrite E1. cbn [bind].
    destruct (v_model v) as [|i] eqn:VM.
    + rewrite C. destruct (first_model_ok _ _ _ T1 NF) as (s2 & m' & E2 & T2 & Q2 & A2). rewrite E2. cbn [bind]. destruct (to_first_ok _ _ _ _ _ T2 A2) as (s3 & E3 & T3 & A3 & D3 & Q3). rewrite E3. cbn [bind].
      destruct (quiet_trans _ _ _ (quiet_trans _ _ _ Q Q1) (quiet_trans _ _ _ Q2 Q3)) as (QA & QB & QC). apply announce_ok; [|exact QB|exact QC].
      replace v with (at_pos v 0 0); [eapply shows_at; eauto; congruence|]. destruct v. cbn in *. subst. reflexivity.
    + destruct C as (m' & A'). rewrite (proj1 (proj2 A')). destruct (nth_error_Some_lt (v_flags v) i ltac:(exact (Nat.lt_trans _ _ _ (Nat.lt_succ_diag_r i) R1))) as [f' F'].
      destruct (to_last_ok _ _ _ _ _ f' T1 A' F') as (s2 & E2 & T2 & A2 & D2 & Q2). rewrite E2. cbn [bind].
      destruct (quiet_trans _ _ _ (quiet_trans _ _ _ Q Q1) Q2) as (QA & QB & QC). apply announce_ok; [|exact QB|exact QC]. unfold size_of, now_of. rewrite F'. eapply shows_at; eauto; congruence.
  - destruct (Z.ltb_spec 0 (Z.of_nat (S k))); [|lia]. replace (Z.of_nat (S k) - 1) with (Z.of_nat k) by lia. rewrite of_nat_ltb. destruct (Nat.ltb_spec k (size_of v (v_model v))); [|lia]. cbn [andb].
    destruct (nth_error_Some_lt (dm_diffs x) k ltac:(lia)) as [d' N]. rewrite (diff_at_nth _ _ _ N). cbn [bind].
    destruct (go_ok s l _ _ m x f _ d' (fa_tidy _ _ _ _ _ _ _ _ F) (fa_at _ _ _ _ _ _ _ _ F) (fa_model _ _ _ _ _ _ _ _ F) (fa_flags _ _ _ _ _ _ _ _ F) (fa_state _ _ _ _ _ _ _ _ F) N) as (G1 & G2 & G3).
    apply announce_difference_ok; [|reflexivity|reflexivity|reflexivity]. eapply shows_at; eauto.
Qed.
Lemma next_file_ok s v : shows s v -> exists s', slot_next_model s = Ok s' /\
  moved s s' v (at_pos v (if Nat.ltb (S (v_model v)) (length (v_flags v)) then S (v_model v) else v_model v) 0).
Proof.
  intros SH. destruct (shows_facts s v SH) as (l & m & x & d & f & y & F). destruct (facts_range _ _ _ _ _ _ _ _ F) as [R1 R2].
  assert (RW : ml_rw s = v_rw v) by (destruct SH; assumption). assert (NF : v_flags v <> []) by (destruct (v_flags v); [cbn in R1; lia|discriminate]).
  unfold slot_next_model. destruct (next_model_ok _ _ _ _ _ (fa_tidy _ _ _ _ _ _ _ _ F) (fa_at _ _ _ _ _ _ _ _ F)) as (s1 & E1 & T1 & Q1 & C). rewrite E1. cbn [bind].
  destruct (Nat.ltb_spec (S (v_model v)) (length (v_flags v))) as [L2|L2].
  - destruct C as (m' & A'). rewrite (proj1 (proj2 A')). cbn [bind]. destruct (to_first_ok _ _ _ _ _ T1 A') as (s2 & E2 & T2 & A2 & D2 & Q2). rewrite E2. cbn [bind].
    destruct (quiet_trans _ _ _ Q1 Q2) as (QA & QB & QC). apply announce_ok; [|exact QB|exact QC]. eapply shows_at; eauto; congruence.
  - rewrite C. destruct (last_model_ok _ _ _ T1 NF) as (s2 & m' & E2 & T2 & Q2 & A2). rewrite E2. cbn [bind]. destruct (to_first_ok _ _ _ _ _ T2 A2) as (s3 & E3 & T3 & A3 & D3 & Q3). rewrite E3. cbn [bind].
    destruct (quiet_trans _ _ _ Q1 (quiet_trans _ _ _ Q2 Q3)) as (QA & QB & QC). apply announce_ok; [|exact QB|exact QC]. replace (v_model v) with (length (v_flags v) - 1)%nat by lia. eapply shows_at; eauto; congruence.
Qed.
Lemma previous_file_ok s v : shows s v -> exists s', slot_previous_model s = Ok s' /\ moved s s' v (at_pos v (v_model v - 1) 0).
Proof.
  intros SH. destruct (shows_facts s v SH) as (l & m & x & d & f & y & F). destruct (facts_range _ _ _ _ _ _ _ _ F) as [R1 R2].
  assert (RW : ml_rw s = v_rw v) by (destruct SH; assumption). assert (NF : v_flags v <> []) by (destruct (v_flags v); [cbn in R1; lia|discriminate]).
  unfold slot_previous_model. destruct (prev_model_ok _ _ _ _ _ (fa_tidy _ _ _ _ _ _ _ _ F) (fa_at _ _ _ _ _ _ _ _ F)) as (s1 & E1 & T1 & Q1 & C). rewrite E1. cbn [bind].
  destruct (v_model v) as [|i] eqn:VM.
  - rewrite C. destruct (first_model_ok _ _ _ T1 NF) as (s2 & m' & E2 & T2 & Q2 & A2). rewrite E2. cbn [bind]. destruct (to_first_ok _ _ _ _ _ T2 A2) as (s3 & E3 & T3 & A3 & D3 & Q3). rewrite E3. cbn [bind].
    destruct (quiet_trans _ _ _ Q1 (quiet_trans _ _ _ Q2 Q3)) as (QA & QB & QC). apply announce_ok; [|exact QB|exact QC]. eapply shows_at; eauto; congruence.
  - destruct C as (m' & A'). rewrite (proj1 (proj2 A')). cbn [bind]. destruct (to_first_ok _ _ _ _ _ T1 A') as (s2 & E2 & T2 & A2 & D2 & Q2). rewrite E2. cbn [bind].
    destruct (quiet_trans _ _ _ Q1 Q2) as (QA & QB & QC). apply announce_ok; [|exact QB|exact QC]. replace (S i - 1)%nat with i by lia. eapply shows_at; eauto; congruence.
Qed.

(** * Selecting *)
Lemma select_in_ok s l fs i m x f k d : tidy s l fs -> at_model s l i m -> model_of s m = Ok x -> nth_error fs i = Some f -> model_state x (fst f) (snd f) ->
  nth_error (dm_diffs x) k = Some d -> ml_diff s = Some (m, d) ->
  exists s', select_in s m (Some (m, d)) = Ok (s', true) /\ tidy s' l fs /\ at_model s' l i m /\ at_diff s' m k /\ quiet s s' /\ ml_diff s' = ml_diff s.
Proof.
  intros T A E F M N D. unfold select_in. rewrite E. cbn [bind]. rewrite Nat.eqb_refl. unfold set_selected_difference. cbn [sel_eqb].
  assert (ND := ms_nodup _ _ _ M). destruct (dm_sel x) as [d0|] eqn:SX; [destruct (Nat.eqb_spec d d0) as [<-|NE]|].
  2,3: rewrite (find_id_nodup _ _ _ ND N); destruct (go_ok s l fs i m x f k d T A E F M N) as (G1 & G2 & G3);
    eexists; (split; [reflexivity|]); (split; [eapply tidy_ext; [..|exact G1]; reflexivity|]); (split; [exact G2|]); (split; [eapply at_diff_ext; [..|exact G3]; [reflexivity|exact D]|]); split; [repeat split|reflexivity].
  eexists. split; [reflexivity|]. split; [eapply tidy_same; [exact T|apply A|exact F|exact M]|]. split; [exact A|]. split; [|split; [repeat split|reflexivity]].
  destruct (ms_sel _ _ _ M d SX) as [I0 I1]. exists x, d. split; [eapply model_put; exact E|]. split; [|split; [exact SX|split; [exact N|exact D]]].
  assert (Z.to_nat (dm_index x) = k); [|lia]. eapply NoDup_nth_error; [exact ND|eapply nth_some_lt; exact I1|congruence].
Qed.
Lemma shows_nth s v i k : shows s v -> (k < size_of v i)%nat -> exists l m x d f, tidy s l (v_flags v) /\ nth_error l i = Some m /\ model_of s m = Ok x /\
  nth_error (v_flags v) i = Some f /\ model_state x (fst f) (snd f) /\ nth_error (dm_diffs x) k = Some d.
Proof.
  intros SH L. apply shows_split in SH as (R & l & m0 & T & _). unfold size_of, now_of in L. destruct (nth_error (v_flags v) i) as [f|] eqn:F; [|cbn in L; lia].
  destruct T as (T1 & T2 & T3). destruct (Forall2_at' _ _ _ _ _ T3 F) as (m & N & x & E & M). destruct (ms_nth _ _ _ k M L) as (d & ND & _). exists l, m, x, d, f. split; [split; auto|]. auto 10.
Qed.
Lemma set_same s v : shows s v -> exists a, set_selected_model s (ml_sel s) = Ok (with_act s a, true).
Proof.
  intros SH. unfold set_selected_model. destruct (update_actions_ok s v SH) as (a & E & _). exists a.
  replace (sel_eqb (ml_sel s) (ml_sel s)) with true by (destruct (ml_sel s); cbn; [now rewrite Nat.eqb_refl|reflexivity]). rewrite E. reflexivity.
Qed.
Lemma pair_select_ok s v i k l m x d f : shows s v -> tidy s l (v_flags v) -> nth_error l i = Some m -> model_of s m = Ok x -> nth_error (v_flags v) i = Some f ->
  model_state x (fst f) (snd f) -> nth_error (dm_diffs x) k = Some d ->
  exists s', slot_selection_changed s (Some m) (Some (m, d)) = Ok s' /\ moved s s' v (at_pos v i k).
Proof.
  intros SH T N E F M ND. unfold slot_selection_changed, the_list. cbn [with_sel ml_models]. rewrite (proj1 T). cbn [bind].
  rewrite (index_in_nodup _ _ _ (proj1 (proj2 T)) N). set (s1 := with_diff (with_index (with_sel s (Some m)) (Z.of_nat i)) (Some (m, d))).
  assert (T1 : tidy s1 l (v_flags v)) by (eapply tidy_ext; [..|exact T]; reflexivity). assert (A1 : at_model s1 l i m) by (repeat split; exact N).
  assert (RW : ml_rw s = v_rw v) by (destruct SH; assumption).
  destruct (select_in_ok s1 l _ i m x f k d T1 A1 E F M ND eq_refl) as (s2 & E2 & T2 & A2 & D2 & (Q1 & Q2 & Q3) & W2). rewrite E2. cbn [bind fst]. change (ml_diff s1) with (Some (m, d)) in W2.
  assert (SH2 : shows s2 (at_pos v i k)) by (eapply shows_at; eauto; rewrite Q1; exact RW). destruct (set_same s2 _ SH2) as (a & E3). rewrite E3. cbn [bind].
  change (ml_sel (with_act s2 a)) with (ml_sel s2). rewrite (proj1 (proj2 A2)). change (ml_diff (with_act s2 a)) with (ml_diff s2). rewrite W2.
  destruct (tidy_at _ _ _ _ _ T2 N) as (x2 & f2 & X2 & F2 & M2). assert (f2 = f) by congruence. subst f2. destruct D2 as (x2' & d' & X2' & IX2 & SX2 & NX2 & DX2). rewrite X2 in X2'. injection X2' as <-.
  assert (d' = d) as -> by (rewrite W2 in DX2; cbn in DX2; congruence).
  destruct (select_in_ok (with_act s2 a) l (v_flags v) i m x2 f k d) as (s3 & E4 & T4 & A4 & D4 & (Q4 & Q5 & Q6) & W4).
  { eapply tidy_ext; [..|exact T2]; reflexivity. } { exact A2. } { exact X2. } { exact F. } { exact M2. } { exact NX2. } { exact W2. }
  rewrite E4. cbn [bind]. assert (SH3 : shows s3 (at_pos v i k)) by (eapply shows_at; eauto; rewrite Q4; cbn; rewrite Q1; exact RW).
  destruct (told_ok (SetSelection (Some m) (Some (m, d))) s3 _ SH3) as (b & E5 & AR & SH5). eexists. split; [exact E5|]. split; [exact SH5|]. split; [exact AR|]. split.
  - cbn. rewrite Q5. cbn. exact Q2.
  - eexists. split.
    + cbn. rewrite Q6. cbn. rewrite Q3. cbn. rewrite <- app_assoc. reflexivity.
    + left. cbn. rewrite (proj1 (proj2 A4)), W4. cbn. now rewrite W2.
Qed.
Lemma select_ok s v i k : shows s v -> (k < size_of v i)%nat -> exists s', run_lop s (LSelect i k) = Ok s' /\ moved s s' v (at_pos v i k).
Proof.
  intros SH L. destruct (shows_nth s v i k SH L) as (l & m & x & d & f & T & N & E & F & M & ND). cbn [run_lop]. unfold the_list. rewrite (proj1 T). cbn [bind]. rewrite (model_at_nth _ _ _ N). cbn [bind].
  rewrite E. cbn [bind]. rewrite (diff_at_nth _ _ _ ND). cbn [bind]. eapply pair_select_ok; eauto.
Qed.
Lemma single_select_ok s v k d m : shows s v -> ml_sel s = Some m -> (forall x, model_of s m = Ok x -> nth_error (dm_diffs x) k = Some d) ->
  exists s', slot_difference_changed s (Some (m, d)) = Ok s' /\ moved s s' v (at_pos v (v_model v) k).
Proof.
  intros SH SM ND. destruct (shows_facts s v SH) as (l & m' & x & d0 & f & y & F). assert (m' = m) as -> by (destruct (fa_at _ _ _ _ _ _ _ _ F) as (_ & A & _); congruence).
  specialize (ND x (fa_model _ _ _ _ _ _ _ _ F)). unfold slot_difference_changed. cbn [with_diff ml_sel]. rewrite SM. set (s1 := with_diff s (Some (m, d))).
  destruct (select_in_ok s1 l (v_flags v) (v_model v) m x f k d) as (s2 & E2 & T2 & A2 & D2 & (Q1 & Q2 & Q3) & W2).
  { eapply tidy_ext; [..|apply F]; reflexivity. } { apply F. } { apply F. } { apply F. } { apply F. } { exact ND. } { reflexivity. }
  rewrite E2. cbn [bind]. assert (RW : ml_rw s = v_rw v) by (destruct SH; assumption).
  assert (SH2 : shows s2 (at_pos v (v_model v) k)) by (eapply shows_at; eauto; rewrite Q1; exact RW).
  destruct (told_ok (SetSelectionOf (Some (m, d))) s2 _ SH2) as (b & E5 & AR & SH5). eexists. split; [exact E5|]. split; [exact SH5|]. split; [exact AR|]. split.
  - cbn. exact Q2.
  - eexists. split; [cbn; rewrite Q3; cbn; rewrite <- app_assoc; reflexivity|]. right. split; [|reflexivity]. cbn. now rewrite W2.
Qed.
Lemma select_difference_ok s v k : shows s v -> (k < size_of v (v_model v))%nat -> exists s', run_lop s (LSelectDifference k) = Ok s' /\ moved s s' v (at_pos v (v_model v) k).
Proof.
  intros SH L. destruct (shows_facts s v SH) as (l & m & x & d & f & y & F). cbn [run_lop]. rewrite (facts_selected _ _ _ _ _ _ _ _ F). cbn [bind snd fst].
  rewrite <- (facts_len _ _ _ _ _ _ _ _ F) in L. destruct (nth_error_Some_lt _ _ L) as [d' N]. rewrite (diff_at_nth _ _ _ N). cbn [bind].
  apply single_select_ok; [exact SH|apply (fa_at _ _ _ _ _ _ _ _ F)|]. intros x' E. rewrite (fa_model _ _ _ _ _ _ _ _ F) in E. congruence.
Qed.

(** * Changing the selected model *)
Lemma put_keep s v l m x d f y z now saved : facts s v l m x d f y -> shows s v -> model_state z now saved -> dm_diffs z = dm_diffs x -> dm_sel z = dm_sel x -> dm_index z = dm_index x ->
  shows (put_model s m z) (with_flags v (update (v_flags v) (v_model v) (now, saved))).
Proof.
  intros F SH M E1 E2 E3. apply shows_split. split; [destruct SH; assumption|]. exists l, m. split; [|split].
  - eapply tidy_put; [apply F|apply F|exact M].
  - apply F.
  - exists z, d. split; [eapply model_put; apply F|]. rewrite E1, E2, E3. repeat split; apply F.
Qed.
Lemma apply_ok s v b : shows s v -> exists s', slot_apply_difference s b = Ok s' /\ shows s' (apply_here b v) /\ ml_has_save s' = ml_has_save s /\ ml_out s' = ml_out s ++ [Applied b] /\ ml_act s' = ml_act s.
Proof.
  intros SH. destruct (shows_facts s v SH) as (l & m & x & d & f & y & F). unfold slot_apply_difference. rewrite (facts_selected _ _ _ _ _ _ _ _ F). cbn [bind].
  destruct (ms_apply x _ _ (v_diff v) b (fa_state _ _ _ _ _ _ _ _ F)) as (z & E & M & D & SE & IX).
  { rewrite (fa_sel _ _ _ _ _ _ _ _ F). apply F. } { rewrite (fa_sel _ _ _ _ _ _ _ _ F). discriminate. }
  rewrite E. cbn [bind]. eexists. split; [reflexivity|]. split; [|repeat split]. apply shows_emit. unfold apply_here, set_now. rewrite (fa_now _ _ _ _ _ _ _ _ F), (fa_saved _ _ _ _ _ _ _ _ F).
  eapply put_keep; eauto.
Qed.
Lemma apply_all_slot_ok s v b : shows s v -> exists s', slot_apply_all s b = Ok s' /\ shows s' (apply_everywhere b v) /\ ml_has_save s' = ml_has_save s /\ ml_out s' = ml_out s ++ [AppliedAll b] /\ ml_act s' = ml_act s.
Proof.
  intros SH. destruct (shows_facts s v SH) as (l & m & x & d & f & y & F). unfold slot_apply_all. rewrite (facts_selected _ _ _ _ _ _ _ _ F). cbn [bind].
  destruct (ms_apply_all x _ _ b (fa_state _ _ _ _ _ _ _ _ F)) as (z & E & M & D & SE & IX).
  rewrite E. cbn [bind]. eexists. split; [reflexivity|]. split; [|repeat split]. apply shows_emit. unfold apply_everywhere, set_now. rewrite (fa_now _ _ _ _ _ _ _ _ F), (fa_saved _ _ _ _ _ _ _ _ F).
  eapply put_keep; eauto.
Qed.
Lemma apply_here_same s v l m x d f y : facts s v l m x d f y -> apply_here (d_applied y) v = v.
Proof.
  intros F. unfold apply_here, set_now. rewrite (fa_now _ _ _ _ _ _ _ _ F), (fa_saved _ _ _ _ _ _ _ _ F). rewrite (update_same_value _ _ _ (fa_applied _ _ _ _ _ _ _ _ F)).
  rewrite update_same_value by (rewrite <- surjective_pairing; apply F). now destruct v.
Qed.
Lemma save_ok e s v : shows s v -> exists s', slot_save e s = Ok s' /\
  shows s' (with_flags v (update (v_flags v) (v_model v) (after_save e (now_of v (v_model v), saved_of v (v_model v))))) /\ ml_has_save s' = ml_has_save s /\
  (exists pre, ml_out s' = ml_out s ++ pre ++ [UpdateActions] /\ (In (Error SaveProblem) pre <-> unsaved_flags (now_of v (v_model v), saved_of v (v_model v)) = true /\ save_succeeds e = false)).
Proof.
  intros SH. destruct (shows_facts s v SH) as (l & m & x & d & f & y & F). unfold slot_save. rewrite (proj1 (proj2 (fa_at _ _ _ _ _ _ _ _ F))). unfold save_model. rewrite (fa_model _ _ _ _ _ _ _ _ F). cbn [bind].
  destruct (ms_save e x _ _ (fa_state _ _ _ _ _ _ _ _ F)) as (o & E & M & D & SE & IX & RT & ER). rewrite E. cbn [bind]. rewrite (fa_now _ _ _ _ _ _ _ _ F), (fa_saved _ _ _ _ _ _ _ _ F).
  eexists. split; [reflexivity|]. assert (P := put_keep _ _ _ _ _ _ _ _ _ _ _ F SH M D SE IX). unfold after_save. cbn [fst snd]. split.
  { apply shows_emit. set (s1 := put_model s m (so_model o)) in *. destruct (so_error o); match goal with |- context [if ?c then _ else _] => destruct c end; try apply shows_act; try apply shows_emit; exact P. }
  split; [destruct (so_error o); cbn; match goal with |- context [if ?c then _ else _] => destruct c eqn:? end; cbn; congruence|].
  exists (if so_error o then [Error SaveProblem] else []). split.
  - destruct (so_error o); cbn; match goal with |- context [if ?c then _ else _] => destruct c end; cbn; rewrite <- ?app_assoc; reflexivity.
  - rewrite ER, <- surjective_pairing. destruct (unsaved_flags f), (save_succeeds e); cbn; split; intuition congruence.
Qed.
Definition same_place (x x' : dmodel) : Prop := dm_diffs x' = dm_diffs x /\ dm_sel x' = dm_sel x /\ dm_index x' = dm_index x.
Definition same_list (s s' : mlist) : Prop :=
  ml_models s' = ml_models s /\ ml_sel s' = ml_sel s /\ ml_diff s' = ml_diff s /\ ml_index s' = ml_index s /\ ml_rw s' = ml_rw s /\ ml_has_save s' = ml_has_save s /\ ml_act s' = ml_act s.
Lemma model_emit g s m : model_of (emit g s) m = model_of s m. Proof. reflexivity. Qed.
Lemma Forall2_models s s' l fs : (forall m, In m l -> model_of s' m = model_of s m) ->
  Forall2 (fun m f => exists x, model_of s m = Ok x /\ model_state x (fst f) (snd f)) l fs -> Forall2 (fun m f => exists x, model_of s' m = Ok x /\ model_state x (fst f) (snd f)) l fs.
Proof.
  intros H F. induction F as [|m f l fs (x & E & M) _ IH]; constructor.
  - exists x. rewrite H by now left. auto.
  - apply IH. intros m' I. apply H. now right.
Qed.
Lemma save_models_ok envs : forall l k s fs, NoDup l -> Forall2 (fun m f => exists x, model_of s m = Ok x /\ model_state x (fst f) (snd f)) l fs ->
  exists s' b, save_models envs k s l = Ok (s', b) /\
    Forall2 (fun m f => exists x, model_of s' m = Ok x /\ model_state x (fst f) (snd f)) l (after_save_all envs k fs) /\
    (forall m x, model_of s m = Ok x -> exists x', model_of s' m = Ok x' /\ same_place x x') /\
    (forall m, ~ In m l -> model_of s' m = model_of s m) /\ same_list s s'.
Proof.
  induction l as [|m l IH]; intros k s fs ND F; inversion F as [|? f ? fs' (x & E & M) F']; subst.
  - exists s, true. split; [reflexivity|]. split; [constructor|]. split; [intros m x E; exists x; repeat split; auto|]. split; [reflexivity|]. repeat split.
  - inversion ND as [|? ? NI ND']; subst. cbn [save_models after_save_all]. unfold save_model. rewrite E. cbn [bind].
    destruct (ms_save (envs k) x _ _ M) as (o & EO & MO & D & SE & IX & RT & ER). rewrite EO. cbn [bind].
    set (s1 := if so_error o then emit (Error SaveProblem) (put_model s m (so_model o)) else put_model s m (so_model o)).
    assert (H1 : model_of s1 m = Ok (so_model o)) by (unfold s1; destruct (so_error o); rewrite ?model_emit; eapply model_put; exact E).
    assert (H2 : forall m', m <> m' -> model_of s1 m' = model_of s m') by (intros m' NE; unfold s1; destruct (so_error o); rewrite ?model_emit; apply model_put_other; exact NE).
    assert (H3 : same_list s s1) by (unfold s1; destruct (so_error o); repeat split).
    assert (H4 : forall m' x', model_of s m' = Ok x' -> exists x'', model_of s1 m' = Ok x'' /\ same_place x' x'').
    { intros m' x' E'. destruct (Nat.eq_dec m m') as [<-|NE]; [|rewrite H2 by exact NE; exists x'; repeat split; auto]. rewrite E in E'. injection E' as <-. exists (so_model o). split; [exact H1|]. repeat split; assumption. }
    rewrite <- surjective_pairing in RT. rewrite RT. destruct (negb (unsaved_flags f) || save_goes_on (envs k))%bool.
    + destruct (IH (S k) s1 fs' ND') as (s' & b & E' & F2 & P & O & SL).
      { eapply Forall2_models; [|exact F']. intros m' I. apply H2. intros ->. contradiction. }
      exists s', b. split; [exact E'|]. split; [|split; [|split]].
      * constructor; [|exact F2]. exists (so_model o). rewrite O by exact NI. split; [exact H1|]. exact MO.
      * intros m' x' E1. destruct (H4 m' x' E1) as (x1 & E2 & P1). destruct (P m' x1 E2) as (x2 & E3 & P2). exists x2. split; [exact E3|]. destruct P1 as (?&?&?), P2 as (?&?&?). repeat split; congruence.
      * intros m' NI'. rewrite O by (intros I; apply NI'; now right). apply H2. intros ->. apply NI'. now left.
      * destruct H3 as (?&?&?&?&?&?&?), SL as (?&?&?&?&?&?&?). repeat split; congruence.
    + exists s1, false. split; [reflexivity|]. split; [|split; [|split]].
      * constructor; [exists (so_model o); split; [exact H1|exact MO]|]. eapply Forall2_models; [|exact F']. intros m' I. apply H2. intros ->. contradiction.
      * exact H4.
      * intros m' NI'. apply H2. intros ->. apply NI'. now left.
      * exact H3.
Qed.
Lemma save_all_ok envs s v : shows s v -> exists s' b, save_all_models envs s = Ok (s', b) /\ shows s' (with_flags v (after_save_all envs 0 (v_flags v))) /\ ml_has_save s' = ml_has_save s.
Proof.
  intros SH. destruct (shows_facts s v SH) as (l & m & x & d & f & y & F). destruct (facts_range _ _ _ _ _ _ _ _ F) as [R1 _]. destruct (fa_tidy _ _ _ _ _ _ _ _ F) as (T1 & T2 & T3).
  unfold save_all_models. rewrite (ob_models _ _ (observed_ok _ _ SH)). destruct (Z.eqb_spec (Z.of_nat (length (v_flags v))) 0); [lia|]. unfold the_list. rewrite T1. cbn [bind].
  destruct (save_models_ok envs l 0 s (v_flags v) T2 T3) as (s' & b & E & F2 & P & O & (L1 & L2 & L3 & L4 & L5 & L6 & L7)). exists s', b. split; [exact E|]. split; [|exact L6].
  apply shows_split. split; [rewrite L5; destruct SH; assumption|]. exists l, m. destruct (fa_at _ _ _ _ _ _ _ _ F) as (A1 & A2 & A3). split; [split; [congruence|split; [exact T2|exact F2]]|].
  split; [split; [exact A1|split; [congruence|rewrite L4; exact A3]]|]. destruct (P m x (fa_model _ _ _ _ _ _ _ _ F)) as (x' & E' & (P1 & P2 & P3)). exists x', d. split; [exact E'|]. rewrite P1, P2, P3, L3. repeat split; apply F.
Qed.

(** * One operation *)
Definition step_ok (s s' : mlist) (v v' : view) (o : lop) : Prop :=
  shows s' v' /\ ml_has_save s' = ml_has_save s /\ (refreshes o = true -> actions_right s' v') /\ (moves o = true -> told s s' v v').
Lemma moved_step s s' v v' o : moved s s' v v' -> step_ok s s' v v' o.
Proof. intros (A & B & C & g & D & E). split; [exact A|]. split; [exact C|]. split; [auto|]. intros _. exists [], g. auto. Qed.
Lemma model_apply_here b v : v_model (apply_here b v) = v_model v. Proof. reflexivity. Qed.
Lemma acting s v b mv np s0 : shows s v -> (forall s v, shows s v -> exists s', mv s = Ok s' /\ moved s s' v (np v)) ->
  (exists pre, ml_out s = ml_out s0 ++ pre) -> ml_has_save s = ml_has_save s0 ->
  exists s', (do s1 <- mv s; update_actions s1) = Ok s' /\ step_ok s0 s' v (np v) (if b : bool then LActApply else LActUnapply).
Proof.
  intros SH H (pre & HO) HS. destruct (H s v SH) as (s1 & E1 & (S1 & A1 & HS1 & g & G1 & G2)). rewrite E1. cbn [bind]. destruct (update_actions_ok s1 _ S1) as (a & E2 & A2). rewrite E2.
  eexists. split; [reflexivity|]. split; [now apply shows_act|]. split; [cbn; congruence|]. split; [intros _; exact A2|]. intros _. exists pre, g. split; [|exact G2]. cbn. rewrite G1, HO, <- app_assoc. reflexivity.
Qed.
Lemma run_lop_ok s v o v' : shows s v -> vstep v o = Some v' -> exists s', run_lop s o = Ok s' /\ step_ok s s' v v' o.
Proof.
  intros SH V. destruct o as [| | | |i k|k|b|b| | |b|e|envs|b]; cbn [vstep] in V; try (injection V as <-).
  - destruct (next_ok s v SH) as (s' & E & M). eauto using moved_step.
  - destruct (previous_ok s v SH) as (s' & E & M). eauto using moved_step.
  - destruct (next_file_ok s v SH) as (s' & E & M). eauto using moved_step.
  - destruct (previous_file_ok s v SH) as (s' & E & M). eauto using moved_step.
  - destruct (Nat.ltb_spec k (size_of v i)) as [L|L]; [|discriminate]. injection V as <-. destruct (select_ok s v i k SH L) as (s' & E & M). eauto using moved_step.
  - destruct (Nat.ltb_spec k (size_of v (v_model v))) as [L|L]; [|discriminate]. injection V as <-. destruct (select_difference_ok s v k SH L) as (s' & E & M). eauto using moved_step.
  - destruct (apply_ok s v b SH) as (s' & E & S' & HS & _). exists s'. split; [exact E|]. split; [exact S'|]. split; [exact HS|]. split; discriminate.
  - destruct (apply_all_slot_ok s v b SH) as (s' & E & S' & HS & _). exists s'. split; [exact E|]. split; [exact S'|]. split; [exact HS|]. split; discriminate.
  - destruct (shows_facts s v SH) as (l & m & x & d & f & y & F). cbn [run_lop]. unfold slot_action_apply, difference_of. rewrite (fa_diff _ _ _ _ _ _ _ _ F), (fa_model _ _ _ _ _ _ _ _ F). cbn [bind].
    rewrite (fa_deref _ _ _ _ _ _ _ _ F). cbn [bind]. destruct (d_applied y) eqn:AY.
    + cbn [bind]. pose proof (apply_here_same _ _ _ _ _ _ _ _ F) as Q. rewrite AY in Q. rewrite Q. apply (acting s v true _ next_pos s); [exact SH|exact next_ok|exists []; now rewrite app_nil_r|reflexivity].
    + destruct (apply_ok s v true SH) as (s1 & E1 & S1 & HS & HO & _). rewrite E1. cbn [bind]. destruct (acting s1 _ true _ next_pos s S1 next_ok ltac:(eauto) HS) as (s' & E' & S'). exists s'. split; [exact E'|]. exact S'.
  - destruct (shows_facts s v SH) as (l & m & x & d & f & y & F). cbn [run_lop]. unfold slot_action_unapply, difference_of. rewrite (fa_diff _ _ _ _ _ _ _ _ F), (fa_model _ _ _ _ _ _ _ _ F). cbn [bind].
    rewrite (fa_deref _ _ _ _ _ _ _ _ F). cbn [bind]. destruct (d_applied y) eqn:AY.
    + destruct (apply_ok s v false SH) as (s1 & E1 & S1 & HS & HO & _). rewrite E1. cbn [bind]. destruct (acting s1 _ false _ previous_pos s S1 previous_ok ltac:(eauto) HS) as (s' & E' & S'). exists s'. split; [exact E'|]. exact S'.
    + cbn [bind]. pose proof (apply_here_same _ _ _ _ _ _ _ _ F) as Q. rewrite AY in Q. rewrite Q. apply (acting s v false _ previous_pos s); [exact SH|exact previous_ok|exists []; now rewrite app_nil_r|reflexivity].
  - destruct (apply_all_slot_ok s v b SH) as (s1 & E1 & S1 & HS & _). cbn [run_lop]. unfold slot_action_apply_all. rewrite E1. cbn [bind]. destruct (update_actions_ok s1 _ S1) as (a & E2 & A2). rewrite E2.
    eexists. split; [reflexivity|]. split; [now apply shows_act|]. split; [exact HS|]. split; [intros _; exact A2|discriminate].
  - destruct (save_ok e s v SH) as (s' & E & S' & HS & _). exists s'. split; [exact E|]. split; [exact S'|]. split; [exact HS|]. split; discriminate.
  - destruct (save_all_ok envs s v SH) as (s' & b & E & S' & HS). cbn [run_lop]. rewrite E. cbn [bind fst]. exists s'. split; [reflexivity|]. split; [exact S'|]. split; [exact HS|]. split; discriminate.
  - cbn [run_lop]. unfold set_read_write. assert (RW : ml_rw s = v_rw v) by (destruct SH; assumption). rewrite RW. destruct (Bool.eqb_spec (v_rw v) b) as [<-|NE].
    + exists s. split; [reflexivity|]. split; [now destruct v|]. split; [reflexivity|]. split; discriminate.
    + assert (S1 : shows (with_rw s b) (mk_view (v_flags v) (v_model v) (v_diff v) b)).
      { apply shows_split in SH as (_ & l & m & T & A & D). apply shows_split. split; [reflexivity|]. exists l, m. split; [eapply tidy_ext; [..|exact T]; reflexivity|]. split; [exact A|]. eapply at_diff_ext; [..|exact D]; reflexivity. }
      destruct (update_actions_ok _ _ S1) as (a & E & A). eexists. split; [exact E|]. split; [now apply shows_act|]. split; [reflexivity|]. split; [intros _; exact A|discriminate].
Qed.
Lemma run_lops_ok : forall ops s v v', shows s v -> vrun v ops = Some v' -> exists s', run_lops s ops = Ok s' /\ shows s' v' /\ ml_has_save s' = ml_has_save s.
Proof.
  induction ops as [|o ops IH]; intros s v v' SH V; cbn [vrun] in V; [injection V as <-; exists s; auto|]. destruct (vstep v o) as [v1|] eqn:E; [|discriminate].
  destruct (run_lop_ok s v o v1 SH E) as (s1 & E1 & S1 & H1 & _). cbn [run_lops]. rewrite E1. cbn [bind]. destruct (IH s1 v1 v' S1 V) as (s' & E' & S' & H'). exists s'. split; [exact E'|]. split; [exact S'|]. congruence.
Qed.
Lemma run_lops_app : forall a b s, run_lops s (a ++ b) = do s <- run_lops s a; run_lops s b.
Proof. induction a as [|o a IH]; intros b s; [reflexivity|]. cbn. destruct (run_lop s o); [apply IH|reflexivity|reflexivity]. Qed.
