(** C57: exactly what can be done with the list while diff runs. *)
From Coq Require Import String Permutation.
From Verif Require Import Base QtStr Diff Parser Save Blend SpecHistory SpecPatch SpecParse Info ModelList SpecList SpecWaiting PHistory PModelState PList PListOpen PropsList.
Local Open Scope Z_scope.

(** * Both lists side by side *)
Record pair (l : list nat) (a b : mlist) : Prop := {
  pa_empty : ml_models a = Some [];
  pa_full : ml_models b = Some l;
  pa_heap : ml_heap b = ml_heap a;
  pa_sel : ml_sel b = ml_sel a;
  pa_diff : ml_diff b = ml_diff a;
  pa_index : ml_index b = ml_index a;
  pa_rw : ml_rw b = ml_rw a;
  pa_save : ml_has_save b = ml_has_save a }.
Lemma waiting_pair s v : waiting s v -> exists l, pair l s (put_back l s) /\ shows (put_back l s) v.
Proof. intros (E & l & S). exists l. split; [split; try reflexivity; exact E|exact S]. Qed.
Lemma pair_waiting l a b v : pair l a b -> shows b v -> waiting a v.
Proof. intros [] S. split; [assumption|]. exists l. apply (shows_ext b); [symmetry; assumption|symmetry; assumption|symmetry; assumption|symmetry; assumption|symmetry; assumption|symmetry; assumption|exact S]. Qed.
Lemma waiting_ext s s' v : ml_heap s' = ml_heap s -> ml_models s' = ml_models s -> ml_sel s' = ml_sel s -> ml_diff s' = ml_diff s ->
  ml_index s' = ml_index s -> ml_rw s' = ml_rw s -> waiting s v -> waiting s' v.
Proof. intros H1 H2 H3 H4 H5 H6 (E & l & S). split; [congruence|]. exists l. apply (shows_ext (put_back l s)); auto. Qed.
Lemma waiting_emit s v g : waiting s v -> waiting (emit g s) v. Proof. now apply waiting_ext. Qed.
Lemma waiting_act s v a : waiting s v -> waiting (with_act s a) v. Proof. now apply waiting_ext. Qed.

(** * What is read off *)
Record wfacts (s : mlist) (v : view) (m : nat) (x : dmodel) (d : nat) (f : list bool * list bool) (y : difference) : Prop := {
  wf_models : ml_models s = Some [];
  wf_msel : ml_sel s = Some m;
  wf_mindex : ml_index s = Z.of_nat (v_model v);
  wf_model : model_of s m = Ok x;
  wf_index : dm_index x = Z.of_nat (v_diff v);
  wf_sel : dm_sel x = Some d;
  wf_nth : nth_error (dm_diffs x) (v_diff v) = Some d;
  wf_diff : ml_diff s = Some (m, d);
  wf_state : model_state x (fst f) (snd f);
  wf_now : now_of v (v_model v) = fst f;
  wf_saved : saved_of v (v_model v) = snd f;
  wf_deref : deref (dm_store x) d = Ok y;
  wf_applied : nth_error (fst f) (v_diff v) = Some (d_applied y);
  wf_rw : ml_rw s = v_rw v;
  wf_len : length (dm_diffs x) = size_of v (v_model v);
  wf_same : apply_here (d_applied y) v = v }.
Lemma waiting_facts s v : waiting s v -> exists m x d f y, wfacts s v m x d f y.
Proof.
  intros (E & l & S). assert (R : ml_rw s = v_rw v) by (destruct S; assumption). destruct (shows_facts _ _ S) as (l' & m & x & d & f & y & F). exists m, x, d, f, y.
  assert (L := facts_len _ _ _ _ _ _ _ _ F). assert (SA := apply_here_same _ _ _ _ _ _ _ _ F). destruct F as [T (A1 & A2 & A3) M IX SE ND D FL ST NO SV DE AP].
  split; auto.
Qed.
Lemma wf_selected s v m x d f y : wfacts s v m x d f y -> selected s = Ok (m, x).
Proof. intros F. apply selected_ok; apply F. Qed.
Lemma wobserved s v : waiting s v -> observed_waiting s v.
Proof.
  intros W. destruct (waiting_facts _ _ W) as (m & x & d & f & y & F). destruct F as [E MS MI M IX SE ND D ST NO SV DE AP R L SA]. split.
  - unfold current_model, find_model, the_list. rewrite E, MS. reflexivity.
  - unfold model_count. rewrite E. reflexivity.
  - unfold has_unsaved_changes. rewrite E. reflexivity.
  - unfold current_difference. rewrite MS, M. cbn [bind]. rewrite D. now rewrite (index_of_diff_at _ _ _ _ (ms_nodup _ _ _ ST) ND).
  - unfold difference_count. rewrite MS, M. cbn [bind]. now rewrite L.
  - unfold applied_count. rewrite MS, M. cbn [bind]. rewrite (ms_count _ _ _ ST). now rewrite NO.
Qed.
Lemma wactions s v : waiting s v -> exists a, update_actions s = Ok (with_act s a) /\ actions_waiting (with_act s a) v.
Proof.
  intros W. destruct (waiting_facts _ _ W) as (m & x & d & f & y & F). assert (SX := wf_selected _ _ _ _ _ _ _ F). destruct F as [E MS MI M IX SE ND D ST NO SV DE AP R L SA].
  assert (NM : has_next_model s = Ok false).
  { unfold has_next_model, the_list. rewrite E. cbn [bind]. rewrite MI. f_equal. cbn [length]. apply Z.ltb_ge. lia. }
  assert (PM : has_prev_model s = Nat.ltb 0 (v_model v)).
  { unfold has_prev_model. rewrite MI. change 0 with (Z.of_nat 0). apply of_nat_ltb. }
  assert (PD : has_prev_diff s = Ok (Nat.ltb 0 (v_model v) || Nat.ltb 0 (v_diff v))%bool).
  { unfold has_prev_diff. rewrite SX. cbn [bind snd]. rewrite IX, PM. change (Z.ltb 0 (Z.of_nat (v_diff v))) with (Z.ltb (Z.of_nat 0) (Z.of_nat (v_diff v))). rewrite of_nat_ltb.
    destruct (Nat.ltb 0 (v_diff v)), (Nat.ltb 0 (v_model v)); reflexivity. }
  assert (NX : has_next_diff s = Ok (Nat.ltb (S (v_diff v)) (size_of v (v_model v)))).
  { unfold has_next_diff. rewrite SX. cbn [bind snd]. rewrite IX, NM, L.
    destruct (Z.ltb_spec (Z.of_nat (v_diff v)) (Z.of_nat (size_of v (v_model v)) - 1)), (Nat.ltb_spec (S (v_diff v)) (size_of v (v_model v))); try reflexivity; lia. }
  unfold update_actions. rewrite E, MS, D.
  destruct (ml_has_save s) eqn:HS.
  - destruct (ml_rw s) eqn:RW.
    + rewrite SX. cbn [bind snd]. unfold difference_of. rewrite M. cbn [bind]. rewrite DE. cbn [bind]. rewrite (unsaved_iff _ _ _ ST). cbn [bind].
      rewrite NM, PD, NX. cbn [bind ac_apply ac_unapply ac_apply_all ac_unapply_all ac_save]. eexists. split; [reflexivity|].
      split; cbn [with_act ml_act ac_apply ac_unapply ac_apply_all ac_unapply_all ac_save ac_previous_file ac_next_file ac_previous ac_next]; intros; rewrite <- ?R, ?andb_true_l, ?NO, ?SV; auto.
      * now rewrite (nth_of_error _ _ _ true AP).
      * now rewrite (nth_of_error _ _ _ false AP).
      * rewrite (ms_count _ _ _ ST), (ms_len _ _ _ ST). apply count_all.
      * rewrite (ms_count _ _ _ ST). apply count_none.
    + cbn [bind]. rewrite NM, PD, NX. cbn [bind]. eexists. split; [reflexivity|].
      split; cbn; intros; rewrite <- ?R; auto.
  - cbn [bind]. rewrite NM, PD, NX. cbn [bind]. eexists. split; [reflexivity|].
    split; cbn [with_act ml_act ac_apply ac_unapply ac_apply_all ac_unapply_all ac_save ac_previous_file ac_next_file ac_previous ac_next ml_has_save]; intros; congruence || auto.
Qed.
Lemma wbar s v : waiting s v -> status_bar s = Ok (emit (bar_waiting v) s).
Proof.
  intros W. destruct (waiting_facts _ _ W) as (m & x & d & f & y & F). destruct (wobserved _ _ W) as [O1 O2 O3 O4 O5 O6]. unfold status_bar. unfold current_model in O1. rewrite O1. cbn [bind].
  rewrite (wf_selected _ _ _ _ _ _ _ F). cbn [bind]. rewrite O5. cbn [bind]. unfold bar_waiting. unfold current_difference in O4. rewrite (wf_msel _ _ _ _ _ _ _ F), (wf_model _ _ _ _ _ _ _ F) in O4. cbn [bind] in O4. injection O4 as O4.
  unfold applied_count in O6. rewrite (wf_msel _ _ _ _ _ _ _ F), (wf_model _ _ _ _ _ _ _ F) in O6. cbn [bind] in O6. injection O6 as O6. now rewrite O2, O4, O6.
Qed.

(** * Operations *)
Definition wmoved (s s' : mlist) (v' : view) : Prop :=
  waiting s' v' /\ actions_waiting s' v' /\ ml_has_save s' = ml_has_save s /\ ml_info s' = ml_info s /\ ml_process s' = ml_process s /\ exists pre, ml_out s' = ml_out s ++ pre ++ [SetSelectionOf (ml_diff s'); bar_waiting v'].
Lemma wannounce s v : waiting s v -> exists s', announce_difference s = Ok s' /\ wmoved s s' v.
Proof.
  intros W. unfold announce_difference. assert (W1 := waiting_emit s v (SetSelectionOf (ml_diff s)) W). rewrite (wbar _ _ W1). cbn [bind].
  destruct (wactions _ _ (waiting_emit _ v (bar_waiting v) W1)) as (a & E & A). rewrite E. eexists. split; [reflexivity|]. split; [apply waiting_act, waiting_emit, W1|]. split; [exact A|].
  split; [reflexivity|]. split; [reflexivity|]. split; [reflexivity|]. exists []. cbn. now rewrite <- app_assoc.
Qed.
(** Going to a difference of the same model. *)
Lemma wgo s v m x d f y k d' : waiting s v -> wfacts s v m x d f y -> nth_error (dm_diffs x) k = Some d' ->
  waiting (with_diff (put_model s m (with_selection x (Z.of_nat k) (Some d'))) (Some (m, d'))) (at_pos v (v_model v) k).
Proof.
  intros (E & l & SH) F N. destruct (shows_facts _ _ SH) as (l' & m1 & x1 & d1 & f1 & y1 & G).
  assert (m1 = m) as -> by (destruct (fa_at _ _ _ _ _ _ _ _ G) as (_ & Q & _); assert (Q2 := wf_msel _ _ _ _ _ _ _ F); cbn in Q; congruence).
  assert (x1 = x) as -> by (assert (Q := fa_model _ _ _ _ _ _ _ _ G); assert (Q2 := wf_model _ _ _ _ _ _ _ F); change (model_of (put_back l s) m) with (model_of s m) in Q; congruence).
  destruct (go_ok (put_back l s) l' _ _ m x f1 k d' (fa_tidy _ _ _ _ _ _ _ _ G) (fa_at _ _ _ _ _ _ _ _ G) (fa_model _ _ _ _ _ _ _ _ G) (fa_flags _ _ _ _ _ _ _ _ G) (fa_state _ _ _ _ _ _ _ _ G) N) as (G1 & G2 & G3).
  split; [exact E|]. exists l. apply (shows_ext (with_diff (put_model (put_back l s) m (with_selection x (Z.of_nat k) (Some d'))) (Some (m, d')))); try reflexivity.
  eapply shows_at; [|exact G1|exact G2|exact G3]. destruct SH; assumption.
Qed.
Lemma wnext s v : waiting s v -> if Nat.ltb (S (v_diff v)) (size_of v (v_model v)) then exists s', slot_next_difference s = Ok s' /\ wmoved s s' (next_pos v)
  else exists w, slot_next_difference s = UB w.
Proof.
  intros W. destruct (waiting_facts _ _ W) as (m & x & d & f & y & F). unfold slot_next_difference. rewrite (wf_selected _ _ _ _ _ _ _ F). cbn [bind]. unfold next_difference, next_pos.
  rewrite (wf_index _ _ _ _ _ _ _ F), (wf_len _ _ _ _ _ _ _ F). replace (Z.of_nat (v_diff v) + 1) with (Z.of_nat (S (v_diff v))) by lia. rewrite of_nat_ltb. destruct (Nat.ltb_spec (S (v_diff v)) (size_of v (v_model v))) as [L|L].
  - rewrite <- (wf_len _ _ _ _ _ _ _ F) in L. destruct (nth_error_Some_lt _ _ L) as [d' N]. rewrite (diff_at_nth _ _ _ N). cbn [bind].
    destruct (wannounce _ _ (wgo _ _ _ _ _ _ _ _ _ W F N)) as (s' & E & M). exists s'. split; [exact E|]. exact M.
  - cbn [bind]. unfold next_model, the_list. cbn [with_index with_diff put_model with_heap ml_models ml_index]. rewrite (wf_models _ _ _ _ _ _ _ F). cbn [bind length Z.of_nat]. rewrite (wf_mindex _ _ _ _ _ _ _ F).
    destruct (Z.ltb_spec (Z.of_nat (v_model v) + 1) 0); [lia|]. cbn [bind with_sel with_index ml_sel]. unfold last_model, the_list. cbn. rewrite (wf_models _ _ _ _ _ _ _ F). cbn. eexists. reflexivity.
Qed.
Lemma wprevious s v : waiting s v -> if Nat.eqb (v_diff v) 0 then exists w, slot_previous_difference s = UB w
  else exists s', slot_previous_difference s = Ok s' /\ wmoved s s' (previous_pos v).
Proof.
  intros W. destruct (waiting_facts _ _ W) as (m & x & d & f & y & F). unfold slot_previous_difference. rewrite (wf_selected _ _ _ _ _ _ _ F). cbn [bind]. unfold prev_difference, previous_pos.
  rewrite (wf_index _ _ _ _ _ _ _ F), (wf_len _ _ _ _ _ _ _ F). assert (R : (v_diff v < size_of v (v_model v))%nat) by (rewrite <- (wf_len _ _ _ _ _ _ _ F); eapply nth_some_lt; apply F).
  destruct (v_diff v) as [|k] eqn:VD.
  - cbn [Nat.eqb]. change (Z.ltb 0 (Z.of_nat 0)) with false. cbn [andb bind]. unfold prev_model, the_list. cbn [with_index with_diff put_model with_heap ml_models ml_index]. rewrite (wf_mindex _ _ _ _ _ _ _ F), (wf_models _ _ _ _ _ _ _ F). cbn [bind].
    destruct (Z.ltb_spec 0 (Z.of_nat (v_model v))).
    + cbn [with_index ml_index length Z.of_nat]. destruct (Z.ltb_spec (Z.of_nat (v_model v) - 1) 0); [lia|]. cbn [bind with_sel with_index ml_sel]. unfold first_model, the_list. cbn. rewrite (wf_models _ _ _ _ _ _ _ F). cbn. eexists. reflexivity.
    + cbn [bind with_sel with_index ml_sel]. unfold first_model, the_list. cbn. rewrite (wf_models _ _ _ _ _ _ _ F). cbn. eexists. reflexivity.
  - cbn [Nat.eqb]. destruct (Z.ltb_spec 0 (Z.of_nat (S k))); [|lia]. replace (Z.of_nat (S k) - 1) with (Z.of_nat k) by lia. rewrite of_nat_ltb. destruct (Nat.ltb_spec k (size_of v (v_model v))); [|lia]. cbn [andb].
    destruct (nth_error_Some_lt (dm_diffs x) k) as [d' N]; [rewrite (wf_len _ _ _ _ _ _ _ F); lia|]. rewrite (diff_at_nth _ _ _ N). cbn [bind].
    destruct (wannounce _ _ (wgo _ _ _ _ _ _ _ _ _ W F N)) as (s' & E & M). exists s'. split; [exact E|]. exact M.
Qed.
Lemma wfile s v b : waiting s v -> exists w, (if b : bool then slot_next_model s else slot_previous_model s) = UB w.
Proof.
  intros W. destruct (waiting_facts _ _ W) as (m & x & d & f & y & F). destruct b.
  - unfold slot_next_model, next_model, the_list. cbn [with_index ml_models ml_index]. rewrite (wf_models _ _ _ _ _ _ _ F). cbn [bind length Z.of_nat]. rewrite (wf_mindex _ _ _ _ _ _ _ F).
    destruct (Z.ltb_spec (Z.of_nat (v_model v) + 1) 0); [lia|]. cbn [bind with_sel with_index ml_sel]. unfold last_model, the_list. cbn. rewrite (wf_models _ _ _ _ _ _ _ F). cbn. eexists. reflexivity.
  - unfold slot_previous_model, prev_model, the_list. rewrite (wf_mindex _ _ _ _ _ _ _ F). destruct (Z.ltb_spec 0 (Z.of_nat (v_model v))).
    + cbn [with_index ml_models ml_index]. rewrite (wf_models _ _ _ _ _ _ _ F). cbn [bind length Z.of_nat]. destruct (Z.ltb_spec (Z.of_nat (v_model v) - 1) 0); [lia|]. cbn [bind with_sel with_index ml_sel]. unfold first_model, the_list. cbn. rewrite (wf_models _ _ _ _ _ _ _ F). cbn. eexists. reflexivity.
    + cbn [bind with_sel with_index ml_sel]. unfold first_model, the_list. cbn. rewrite (wf_models _ _ _ _ _ _ _ F). cbn. eexists. reflexivity.
Qed.
Lemma wapply s v b : waiting s v -> exists s', slot_apply_difference s b = Ok s' /\ waiting s' (apply_here b v) /\ ml_has_save s' = ml_has_save s /\ ml_info s' = ml_info s /\ ml_process s' = ml_process s /\ ml_out s' = ml_out s ++ [Applied b].
Proof.
  intros (E & l & SH). destruct (apply_ok _ _ b SH) as (t & ET & ST & _). unfold slot_apply_difference in *. change (selected (put_back l s)) with (selected s) in ET.
  destruct (selected s) as [[m x]| |]; try discriminate. cbn [bind] in *. destruct (apply_difference x b) as [z| |]; try discriminate. cbn [bind] in *. injection ET as <-.
  eexists. split; [reflexivity|]. split; [|repeat split]. split; [exact E|]. exists l. exact ST.
Qed.
Lemma wapply_all s v b : waiting s v -> exists s', slot_apply_all s b = Ok s' /\ waiting s' (apply_everywhere b v) /\ ml_has_save s' = ml_has_save s /\ ml_info s' = ml_info s /\ ml_process s' = ml_process s.
Proof.
  intros (E & l & SH). destruct (apply_all_slot_ok _ _ b SH) as (t & ET & ST & _). unfold slot_apply_all in *. change (selected (put_back l s)) with (selected s) in ET.
  destruct (selected s) as [[m x]| |]; try discriminate. cbn [bind] in *. destruct (apply_all x b) as [z| |]; try discriminate. cbn [bind] in *. injection ET as <-.
  eexists. split; [reflexivity|]. split; [|repeat split]. split; [exact E|]. exists l. exact ST.
Qed.
Lemma wsave s v e : waiting s v -> exists s', slot_save e s = Ok s' /\
  waiting s' (with_flags v (update (v_flags v) (v_model v) (after_save e (now_of v (v_model v), saved_of v (v_model v))))) /\ ml_info s' = ml_info s /\ ml_process s' = ml_process s.
Proof.
  intros (E & l & SH). destruct (save_ok e _ _ SH) as (t & ET & ST & _). unfold slot_save, save_model in *. change (ml_sel (put_back l s)) with (ml_sel s) in ET.
  destruct (ml_sel s) as [m|]; [|injection ET as <-; eexists; split; [reflexivity|]; split; [split; [exact E|exists l; exact ST]|split; reflexivity]].
  change (model_of (put_back l s) m) with (model_of s m) in ET. destruct (model_of s m) as [x| |]; try discriminate. cbn [bind] in *. destruct (save_destination e x) as [o| |]; try discriminate. cbn [bind] in *. injection ET as <-.
  destruct (so_error o); cbn [emit put_model with_heap ml_has_save] in *; change (ml_has_save (put_back l s)) with (ml_has_save s) in ST; destruct (ml_has_save s) eqn:HS; (eexists; split; [reflexivity|]; split; [|split; reflexivity]); (split; [exact E|]; exists l; exact ST).
Qed.
Lemma wselect s v k : waiting s v -> (k < size_of v (v_model v))%nat -> exists s', run_lop s (LSelectDifference k) = Ok s' /\ wmoved s s' (at_pos v (v_model v) k).
Proof.
  intros W L. destruct (waiting_facts _ _ W) as (m & x & d & f & y & F). cbn [run_lop]. rewrite (wf_selected _ _ _ _ _ _ _ F). cbn [bind snd fst].
  rewrite <- (wf_len _ _ _ _ _ _ _ F) in L. destruct (nth_error_Some_lt _ _ L) as [d' N]. rewrite (diff_at_nth _ _ _ N). cbn [bind].
  unfold slot_difference_changed. cbn [with_diff ml_sel]. rewrite (wf_msel _ _ _ _ _ _ _ F).
  destruct W as (E & l & SH). destruct (shows_facts _ _ SH) as (l' & m1 & x1 & d1 & f1 & y1 & G).
  assert (m1 = m) as -> by (destruct (fa_at _ _ _ _ _ _ _ _ G) as (_ & Q & _); assert (Q2 := wf_msel _ _ _ _ _ _ _ F); cbn in Q; congruence).
  assert (x1 = x) as -> by (assert (Q := fa_model _ _ _ _ _ _ _ _ G); assert (Q2 := wf_model _ _ _ _ _ _ _ F); change (model_of (put_back l s) m) with (model_of s m) in Q; congruence).
  destruct (select_in_ok (with_diff (put_back l s) (Some (m, d'))) l' (v_flags v) (v_model v) m x f1 k d') as (s2 & E2 & T2 & A2 & D2 & (Q1 & Q2 & Q3) & W2).
  { eapply tidy_ext; [..|apply G]; reflexivity. } { apply G. } { apply G. } { apply G. } { apply G. } { exact N. } { reflexivity. }
  assert (SH2 : shows s2 (at_pos v (v_model v) k)) by (eapply shows_at; eauto; rewrite Q1; destruct SH; assumption).
  unfold select_in in *. change (model_of (with_diff (put_back l s) (Some (m, d'))) m) with (model_of s m) in E2. change (model_of (with_diff s (Some (m, d'))) m) with (model_of s m).
  rewrite (wf_model _ _ _ _ _ _ _ F) in *. cbn [bind] in *. rewrite Nat.eqb_refl in *. destruct (set_selected_difference x (Some d')) as [z ok]. injection E2 as <- ->. cbn [bind].
  assert (W3 : waiting (put_model (with_diff s (Some (m, d'))) m z) (at_pos v (v_model v) k)) by (split; [exact E|exists l; exact SH2]).
  destruct (wannounce _ _ W3) as (s' & E3 & M). exists s'. split; [exact E3|]. exact M.
Qed.

(** * The theorems *)
(** refresh() and swap() (and compare(), which does the same) empty the list; selection and actions stay. *)
Lemma wait_begins s v : shows s v -> waiting (compare_mode s) v /\ ml_act (compare_mode s) = ml_act s /\ ml_process (compare_mode s) = true.
Proof.
  intros SH. apply shows_split in SH as (R & l & m & (T1 & T2 & T3) & A & D). unfold compare_mode, clear. rewrite T1. split; [|split; reflexivity]. split; [reflexivity|].
  exists l. apply shows_split. split; [exact R|]. exists l, m. split; [split; [reflexivity|split; [exact T2|exact T3]]|]. split; [exact A|exact D].
Qed.
Lemma shows_info s v i : shows s v -> shows (with_info s i) v. Proof. now apply shows_ext. Qed.
Theorem C57_wait_begins :
  forall o s v i s', shows s v -> ml_info s = Some i ->
  refresh s = Ok s' \/
  swap s = Ok s' /\ (in_mode i = ComparingFiles \/ in_mode i = ComparingDirs) \/
  (exists b, compare o s = Ok (s', b)) /\ snd (dispatch (kind_of o (in_local_source i)) (kind_of o (in_local_destination i))) = RunDiff ->
  waiting s' v /\ observed_waiting s' v /\ ml_act s' = ml_act s /\ ml_process s' = true.
Proof.
  intros o s v i s' SH I H. assert (E : exists i', s' = compare_mode (with_info s i')).
  { assert (WI : with_info s (Some i) = s) by (rewrite <- I; now destruct s). destruct H as [H|[[H M]|[(b & H) K]]].
    - unfold refresh, the_info in H. rewrite I in H. cbn [bind] in H. injection H as <-. exists (Some i). now rewrite WI.
    - unfold swap, the_info in H. rewrite I in H. cbn [bind] in H. exists (Some i). rewrite WI. destruct M as [M|M]; rewrite M in H; injection H as <-; reflexivity.
    - unfold compare, the_info in H. rewrite I in H. cbn [bind] in H. unfold kind_of in K.
      destruct (os_is_dir o (in_local_source i)), (os_is_dir o (in_local_destination i)); cbn [andb negb] in H; cbn in K;
        destruct (os_is_diff o (in_local_source i)), (os_is_diff o (in_local_destination i)); cbn [andb negb] in H; cbn in K; try discriminate K; injection H as <- <-; eexists; reflexivity. }
  destruct E as (i' & ->). destruct (wait_begins _ _ (shows_info _ _ i' SH)) as (W & A & P). split; [exact W|]. split; [apply wobserved, W|]. split; assumption.
Qed.
(** Each operation meanwhile: those that go to another model are undefined, all others do what they always do to the
    selected model (saveAll() does nothing); the actions and the signals then are as specified for the meantime. *)
Theorem C57_each_operation_while_diff_runs :
  forall s v o v1, waiting s v -> vstep v o = Some v1 ->
  if leaves v o then exists w, run_lop s o = UB w
  else exists s' v', wstep v o = Some v' /\ run_lop s o = Ok s' /\ waiting s' v' /\ observed_waiting s' v' /\
    (refreshes o = true -> actions_waiting s' v') /\ ml_process s' = ml_process s /\ ml_info s' = ml_info s /\
    (moves o = true -> exists pre, ml_out s' = ml_out s ++ pre ++ [SetSelectionOf (ml_diff s'); bar_waiting v']).
Proof.
  intros s v o v1 W V. unfold wstep.
  assert (MV : forall o s' v', wmoved s s' v' -> waiting s' v' /\ observed_waiting s' v' /\ (refreshes o = true -> actions_waiting s' v') /\ ml_process s' = ml_process s /\ ml_info s' = ml_info s /\
    (moves o = true -> exists pre, ml_out s' = ml_out s ++ pre ++ [SetSelectionOf (ml_diff s'); bar_waiting v'])).
  { intros o0 s' v' (A & B & C & D & E & G). split; [exact A|]. split; [apply wobserved, A|]. split; [auto|]. split; [exact E|]. split; [exact D|auto]. }
  assert (UP : forall o s1 v' s0 pre, wmoved s0 s1 v' -> ml_info s0 = ml_info s -> ml_process s0 = ml_process s -> ml_out s0 = ml_out s ++ pre ->
    exists s', update_actions s1 = Ok s' /\ waiting s' v' /\ observed_waiting s' v' /\ (refreshes o = true -> actions_waiting s' v') /\ ml_process s' = ml_process s /\ ml_info s' = ml_info s /\
    (moves o = true -> exists pre, ml_out s' = ml_out s ++ pre ++ [SetSelectionOf (ml_diff s'); bar_waiting v'])).
  { intros o0 s1 v' s0 pre (A & B & C & D & E & (pre1 & G)) HI HP HO. destruct (wactions _ _ A) as (a & E1 & A1). eexists. split; [exact E1|]. assert (W1 := waiting_act _ _ a A). split; [exact W1|].
    split; [apply wobserved, W1|]. split; [auto|]. split; [cbn; congruence|]. split; [cbn; congruence|]. intros _. exists (pre ++ pre1). cbn. rewrite G, HO, <- !app_assoc. reflexivity. }
  assert (NM : forall s' v' , waiting s' v' -> ml_info s' = ml_info s -> ml_process s' = ml_process s -> forall o, refreshes o = false -> moves o = false ->
    waiting s' v' /\ observed_waiting s' v' /\ (refreshes o = true -> actions_waiting s' v') /\ ml_process s' = ml_process s /\ ml_info s' = ml_info s /\
    (moves o = true -> exists pre, ml_out s' = ml_out s ++ pre ++ [SetSelectionOf (ml_diff s'); bar_waiting v'])).
  { intros s' v' A HI HP o0 R M. rewrite R, M. split; [exact A|]. split; [apply wobserved, A|]. split; [discriminate|]. split; [exact HP|]. split; [exact HI|discriminate]. }
  destruct o as [| | | |i k|k|b|b| | |b|e|envs|b]; cbn [leaves]; cbn [vstep] in V |- *.
  - assert (H := wnext s v W). destruct (Nat.ltb (S (v_diff v)) (size_of v (v_model v))); cbn [negb]; [|exact H]. destruct H as (s' & E & M). exists s', (next_pos v). split; [reflexivity|]. split; [exact E|]. apply MV, M.
  - assert (H := wprevious s v W). destruct (Nat.eqb (v_diff v) 0); [exact H|]. destruct H as (s' & E & M). exists s', (previous_pos v). split; [reflexivity|]. split; [exact E|]. apply MV, M.
  - exact (wfile s v true W).
  - exact (wfile s v false W).
  - cbn [run_lop]. unfold the_list. rewrite (proj1 W). cbn [bind]. unfold model_at. destruct (Z.ltb_spec (Z.of_nat i) 0); [lia|]. destruct (Z.to_nat (Z.of_nat i)); cbn; eexists; reflexivity.
  - destruct (Nat.ltb_spec k (size_of v (v_model v))) as [L|L]; [|discriminate]. destruct (wselect s v k W L) as (s' & E & M). exists s', (at_pos v (v_model v) k). split; [reflexivity|]. split; [exact E|]. apply MV, M.
  - destruct (wapply s v b W) as (s' & E & A & _ & HI & HP & _). exists s', (apply_here b v). split; [reflexivity|]. split; [exact E|]. now apply NM.
  - destruct (wapply_all s v b W) as (s' & E & A & _ & HI & HP). exists s', (apply_everywhere b v). split; [reflexivity|]. split; [exact E|]. now apply NM.
  - destruct (waiting_facts _ _ W) as (m & x & d & f & y & F). cbn [run_lop]. unfold slot_action_apply, difference_of. rewrite (wf_diff _ _ _ _ _ _ _ F), (wf_model _ _ _ _ _ _ _ F). cbn [bind]. rewrite (wf_deref _ _ _ _ _ _ _ F). cbn [bind].
    destruct (d_applied y) eqn:AY.
    + cbn [bind]. pose proof (wf_same _ _ _ _ _ _ _ F) as Q. rewrite AY in Q. rewrite Q. assert (H := wnext s v W). destruct (Nat.ltb (S (v_diff v)) (size_of v (v_model v))); cbn [negb].
      * destruct H as (s1 & E & M). rewrite E. cbn [bind]. destruct (UP LActApply s1 _ s [] M eq_refl eq_refl) as (s' & E' & R); [now rewrite app_nil_r|]. exists s', (next_pos v). split; [reflexivity|]. split; [exact E'|exact R].
      * destruct H as (w & E). rewrite E. cbn [bind]. now exists w.
    + destruct (wapply s v true W) as (s0 & E0 & A0 & _ & HI & HP & HO). rewrite E0. cbn [bind]. assert (H := wnext s0 _ A0).
      assert (SZ : size_of (apply_here true v) (v_model (apply_here true v)) = size_of v (v_model v)).
      { assert (L1 := wf_len _ _ _ _ _ _ _ F). assert (L2 := ms_len _ _ _ (wf_state _ _ _ _ _ _ _ F)). destruct W as (_ & l & SH). destruct (shows_facts _ _ SH) as (l2 & m2 & x2 & d2 & f2 & y2 & G). unfold size_of, now_of, apply_here, set_now, with_flags. cbn [v_flags v_model].
        rewrite nth_update_same by (eapply nth_some_lt; apply (fa_flags _ _ _ _ _ _ _ _ G)). cbn [fst]. rewrite update_length. reflexivity. }
      rewrite SZ in H. change (v_diff (apply_here true v)) with (v_diff v) in H. destruct (Nat.ltb (S (v_diff v)) (size_of v (v_model v))); cbn [negb].
      * destruct H as (s1 & E & M). rewrite E. cbn [bind]. destruct (UP LActApply s1 _ s0 [Applied true] M HI HP HO) as (s' & E' & R). exists s', (next_pos (apply_here true v)). split; [reflexivity|]. split; [exact E'|exact R].
      * destruct H as (w & E). rewrite E. cbn [bind]. now exists w.
  - destruct (waiting_facts _ _ W) as (m & x & d & f & y & F). cbn [run_lop]. unfold slot_action_unapply, difference_of. rewrite (wf_diff _ _ _ _ _ _ _ F), (wf_model _ _ _ _ _ _ _ F). cbn [bind]. rewrite (wf_deref _ _ _ _ _ _ _ F). cbn [bind].
    destruct (d_applied y) eqn:AY.
    + destruct (wapply s v false W) as (s0 & E0 & A0 & _ & HI & HP & HO). rewrite E0. cbn [bind]. assert (H := wprevious s0 _ A0). change (v_diff (apply_here false v)) with (v_diff v) in H. destruct (Nat.eqb (v_diff v) 0).
      * destruct H as (w & E). rewrite E. cbn [bind]. now exists w.
      * destruct H as (s1 & E & M). rewrite E. cbn [bind]. destruct (UP LActUnapply s1 _ s0 [Applied false] M HI HP HO) as (s' & E' & R). exists s', (previous_pos (apply_here false v)). split; [reflexivity|]. split; [exact E'|exact R].
    + cbn [bind]. pose proof (wf_same _ _ _ _ _ _ _ F) as Q. rewrite AY in Q. rewrite Q. assert (H := wprevious s v W). destruct (Nat.eqb (v_diff v) 0).
      * destruct H as (w & E). rewrite E. cbn [bind]. now exists w.
      * destruct H as (s1 & E & M). rewrite E. cbn [bind]. destruct (UP LActUnapply s1 _ s [] M eq_refl eq_refl) as (s' & E' & R); [now rewrite app_nil_r|]. exists s', (previous_pos v). split; [reflexivity|]. split; [exact E'|exact R].
  - destruct (wapply_all s v b W) as (s1 & E1 & A1 & _ & HI & HP). cbn [run_lop]. unfold slot_action_apply_all. rewrite E1. cbn [bind]. destruct (wactions _ _ A1) as (a & E2 & A2). rewrite E2.
    eexists _, (apply_everywhere b v). split; [reflexivity|]. split; [reflexivity|]. assert (W1 := waiting_act _ _ a A1). split; [exact W1|]. split; [apply wobserved, W1|]. split; [auto|]. split; [exact HP|]. split; [exact HI|]. cbn [moves]. discriminate.
  - destruct (wsave s v e W) as (s' & E & A & HI & HP). eexists s', _. split; [reflexivity|]. split; [exact E|]. now apply NM.
  - cbn [run_lop]. unfold save_all_models. rewrite (ow_models _ _ (wobserved _ _ W)). cbn [Z.eqb bind fst]. exists s, v. split; [reflexivity|]. split; [reflexivity|]. now apply NM.
  - cbn [run_lop]. unfold set_read_write. destruct (waiting_facts _ _ W) as (m & x & d & f & y & F). rewrite (wf_rw _ _ _ _ _ _ _ F). destruct (Bool.eqb_spec (v_rw v) b) as [<-|NE].
    + exists s, v. split; [now destruct v|]. split; [reflexivity|]. now apply NM.
    + assert (W1 : waiting (with_rw s b) (mk_view (v_flags v) (v_model v) (v_diff v) b)).
      { destruct W as (E & l & SH). split; [exact E|]. exists l. apply shows_split in SH as (_ & l' & m' & T & A & D). apply shows_split. split; [reflexivity|]. exists l', m'. split; [eapply tidy_ext; [..|exact T]; reflexivity|]. split; [exact A|]. eapply at_diff_ext; [..|exact D]; reflexivity. }
      destruct (wactions _ _ W1) as (a & E2 & A2). rewrite E2. eexists _, _. split; [reflexivity|]. split; [reflexivity|]. apply NM; [apply waiting_act, W1|reflexivity..].
Qed.
(** Any history of operations within the selected model. *)
Theorem C57_histories_while_diff_runs :
  forall ops s v v', waiting s v -> wrun v ops = Some v' ->
  exists s', run_lops s ops = Ok s' /\ waiting s' v' /\ observed_waiting s' v' /\ ml_process s' = ml_process s /\ ml_info s' = ml_info s.
Proof.
  induction ops as [|o ops IH]; intros s v v' W V; cbn [wrun run_lops] in *.
  - injection V as <-. exists s. split; [reflexivity|]. split; [exact W|]. split; [apply wobserved, W|]. split; reflexivity.
  - destruct (wstep v o) as [v2|] eqn:Q; [|discriminate]. assert (V1 : exists v1, vstep v o = Some v1) by (unfold wstep in Q; destruct (leaves v o); [discriminate|]; destruct o; try (exists v2; exact Q); eexists; reflexivity).
    destruct V1 as (v1 & V1). pose proof (C57_each_operation_while_diff_runs s v o v1 W V1) as H. assert (L : leaves v o = false) by (unfold wstep in Q; destruct (leaves v o); [discriminate|reflexivity]). rewrite L in H.
    destruct H as (s1 & v2' & Q2 & E1 & W1 & _ & _ & HP & HI & _). assert (v2' = v2) as -> by congruence. rewrite E1. cbn [bind]. destruct (IH s1 v2 v' W1 V) as (s' & E' & W' & O' & P' & I'). exists s'. split; [exact E'|]. split; [exact W'|]. split; [exact O'|]. split; congruence.
Qed.
(** So an enabled action is dangerous right after refresh() exactly when it leaves the model; once the actions are
    brought up to date only "previous file", "previous difference" and "unapply" at the first difference of a model and
    "apply" at the last one are. *)
Theorem C57_enabled_and_dangerous :
  forall s v o v1, waiting s v -> vstep v o = Some v1 -> actions_waiting s v -> enabled s o = true -> (exists w, run_lop s o = UB w) ->
  (o = LPreviousFile /\ (0 < v_model v)%nat) \/ (o = LPrevious /\ v_diff v = 0%nat /\ (0 < v_model v)%nat) \/
  (o = LActApply /\ S (v_diff v) = size_of v (v_model v)) \/ (o = LActUnapply /\ v_diff v = 0%nat) \/ exists i k, o = LSelect i k.
Proof.
  intros s v o v1 W V [A1 A2 A3 A4 A5 A6 A7 A8 A9] EN (w & E). pose proof (C57_each_operation_while_diff_runs s v o v1 W V) as H. destruct (leaves v o) eqn:L; [|destruct H as (s' & v' & _ & E' & _); rewrite E in E'; discriminate].
  destruct (waiting_facts _ _ W) as (m & x & d & f & y & F). assert (R : (v_diff v < size_of v (v_model v))%nat) by (rewrite <- (wf_len _ _ _ _ _ _ _ F); eapply nth_some_lt; apply F).
  destruct o; cbn [leaves enabled] in L, EN; try discriminate L.
  - rewrite A4 in EN. rewrite EN in L. discriminate.
  - right. left. split; [reflexivity|]. apply Nat.eqb_eq in L. rewrite A3, L in EN. split; [exact L|]. destruct (Nat.ltb_spec 0 (v_model v)); [assumption|discriminate].
  - rewrite A2 in EN. discriminate.
  - left. split; [reflexivity|]. rewrite A1 in EN. now apply Nat.ltb_lt.
  - right. right. right. right. eauto.
  - right. right. left. split; [reflexivity|]. apply negb_true_iff, Nat.ltb_ge in L. lia.
  - right. right. right. left. split; [reflexivity|]. now apply Nat.eqb_eq.
Qed.
(** Three differences in two files are shown and refresh() is called; "next file" is enabled and undefined. Within the
    first file differences can be selected, applied and unapplied; after its last difference the next one is undefined. *)
Example C57_example :
  exists s, refresh three = Ok s /\ waiting s three_view /\ ac_next_file (ml_act s) = true /\ (exists w, run_lop s LNextFile = UB w) /\
    wrun three_view [LNext; LApply true; LSelectDifference 0; LActApply; LActApplyAll false; LApply true; LSaveAll (fun _ => mk_save_env true true true true true true false)] =
      Some (mk_view [([false; true], [false; false]); ([false], [false])] 0 1 true) /\
    wrun three_view [LNext; LNext] = None.
Proof.
  destruct C40_example as (_ & SH & AR & _). destruct (wait_begins three three_view SH) as (W & AC & _).
  exists (compare_mode three). split; [|split; [exact W|split; [|split; [|split]]]].
  - vm_compute. reflexivity.
  - rewrite AC, (ar_next_file _ _ AR). reflexivity.
  - exact (C57_each_operation_while_diff_runs _ _ LNextFile _ W eq_refl).
  - reflexivity.
  - reflexivity.
Qed.
(** In the second file, its difference selected again after refresh(): "previous file" is enabled and undefined. *)
Example C57_dangerous_example :
  exists s v, waiting s v /\ actions_waiting s v /\ enabled s LPreviousFile = true /\ exists w, run_lop s LPreviousFile = UB w.
Proof.
  destruct C40_example as (_ & SH & _). destruct (run_lop_ok three three_view LNextFile _ SH eq_refl) as (s1 & _ & S1 & _).
  destruct (wait_begins s1 _ S1) as (W & _). destruct (C57_each_operation_while_diff_runs _ _ (LSelectDifference 0) _ W eq_refl) as (s2 & v2 & E2 & _ & W2 & _ & A2 & _).
  injection E2 as E2. exists s2, v2. split; [exact W2|]. split; [apply A2; reflexivity|]. split; [cbn [enabled]; rewrite (aw_previous_file _ _ (A2 eq_refl)), <- E2; reflexivity|].
  assert (V : exists v1, vstep v2 LPreviousFile = Some v1) by (eexists; reflexivity). destruct V as (v1 & V). exact (C57_each_operation_while_diff_runs _ _ LPreviousFile _ W2 V).
Qed.
Print Assumptions C57_wait_begins.
Print Assumptions C57_each_operation_while_diff_runs.
Print Assumptions C57_histories_while_diff_runs.
Print Assumptions C57_enabled_and_dangerous.
