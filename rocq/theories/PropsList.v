(** Properties of the list of models: C40 to C46, C49, C50, C57, C58. *)
From Coq Require Import String Permutation.
From Verif Require Import Base QtStr Diff Save Parser Paths SpecHistory SpecPatch SpecParse Blend SpecBlend Info ModelList SpecList PHistory PModelState PAnyInput PropsParse PList PListOpen.
Local Open Scope Z_scope.

(** * Positions *)
Definition in_range (v : view) : Prop := (v_model v < length (v_flags v))%nat /\ (v_diff v < size_of v (v_model v))%nat.
(** The number among all differences tells the position. *)
Theorem C40_overall_is_position : forall v w, v_flags v = v_flags w -> in_range v -> in_range w -> overall v = overall w ->
  v_model v = v_model w /\ v_diff v = v_diff w.
Proof.
  assert (K : forall v w, v_flags v = v_flags w -> in_range v -> in_range w -> (v_model v < v_model w)%nat -> (overall v < overall w)%nat).
  { intros v w E [V1 V2] [W1 W2] L. unfold overall, sizes. rewrite <- E. fold (sizes v). destruct (nth_error_Some_lt _ _ V1) as [f F].
    assert (N := nth_sizes _ _ _ F). assert (Q : (sum (firstn (S (v_model v)) (sizes v)) <= sum (firstn (v_model w) (sizes v)))%nat).
    { clear -L. revert L. generalize (v_model v), (v_model w), (sizes v). intros a b l. revert a b. induction l as [|x l IH]; intros a [|b] L; try lia; [rewrite !firstn_nil; cbn; lia|].
      destruct a as [|a]; [cbn; lia|]. change (x + sum (firstn (S a) l) <= x + sum (firstn b l))%nat. specialize (IH a b ltac:(lia)). lia. }
    rewrite (sum_firstn_S _ _ _ N) in Q. lia. }
  intros v w E V W O. assert (v_model v = v_model w).
  { destruct (Nat.lt_trichotomy (v_model v) (v_model w)) as [L|[L|L]]; [|exact L|]; [pose proof (K v w E V W L)|pose proof (K w v (eq_sym E) W V L)]; lia. }
  split; [assumption|]. unfold overall, sizes in O. rewrite E, H in O. lia.
Qed.
Print Assumptions C40_overall_is_position.
Lemma shows_in_range s v : shows s v -> in_range v.
Proof. intros SH. destruct (shows_facts s v SH) as (l & m & x & d & f & y & F). eapply facts_range; exact F. Qed.
Lemma shows_sizes s v : shows s v -> Forall (fun n => 0 < n)%nat (sizes v).
Proof. intros SH. apply shows_split in SH as (_ & l & m & T & _). eapply sizes_pos; exact T. Qed.
Lemma overall_total v : in_range v -> (overall v < total_of v)%nat.
Proof.
  intros [R1 R2]. destruct (nth_error_Some_lt _ _ R1) as [f F]. unfold overall, total_of. rewrite (sum_split _ _ _ (nth_sizes _ _ _ F)). lia.
Qed.
Lemma next_overall v : in_range v -> Forall (fun n => 0 < n)%nat (sizes v) -> overall (next_pos v) = Nat.min (overall v + 1) (total_of v - 1) /\ v_flags (next_pos v) = v_flags v.
Proof.
  intros R SP. pose proof (overall_total v R) as OT. pose proof R as [R1 R2]. destruct (nth_error_Some_lt _ _ R1) as [f F]. assert (N := nth_sizes _ _ _ F). unfold next_pos.
  assert (OL := overall_last v SP R1 R2). destruct (Nat.ltb_spec (S (v_diff v)) (size_of v (v_model v))) as [L|L]; cbn [orb] in OL.
  - apply Nat.ltb_lt in OL. split; [|reflexivity]. unfold overall in *. cbn [at_pos v_model v_diff]. change (sizes (at_pos v (v_model v) (S (v_diff v)))) with (sizes v). lia.
  - destruct (Nat.ltb_spec (S (v_model v)) (length (v_flags v))) as [L2|L2].
    + apply Nat.ltb_lt in OL. split; [|reflexivity]. unfold overall in *. cbn [at_pos v_model v_diff]. change (sizes (at_pos v (S (v_model v)) 0)) with (sizes v). rewrite (sum_firstn_S _ _ _ N). lia.
    + apply Nat.ltb_ge in OL. split; [lia|reflexivity].
Qed.
Lemma previous_overall v : in_range v -> Forall (fun n => 0 < n)%nat (sizes v) -> overall (previous_pos v) = (overall v - 1)%nat /\ v_flags (previous_pos v) = v_flags v.
Proof.
  intros [R1 R2] SP. unfold previous_pos. destruct (v_diff v) as [|k] eqn:VD.
  - destruct (v_model v) as [|i] eqn:VM; [split; [|reflexivity]; unfold overall; rewrite VM, VD; reflexivity|].
    split; [|reflexivity]. unfold overall. cbn [at_pos v_model v_diff]. change (sizes (at_pos v i (size_of v i - 1))) with (sizes v). rewrite VM, VD.
    destruct (nth_error_Some_lt (v_flags v) i ltac:(lia)) as [f F]. assert (N := nth_sizes _ _ _ F). rewrite (sum_firstn_S _ _ _ N).
    rewrite Forall_forall in SP. assert (P := SP _ (nth_error_In _ _ N)). cbn in P. lia.
  - split; [|reflexivity]. unfold overall. cbn [at_pos v_model v_diff]. change (sizes (at_pos v (v_model v) k)) with (sizes v). rewrite VD. lia.
Qed.
(** * C40 *)
Theorem C40_next_difference_walks :
  forall s v, shows s v -> exists s' v', slot_next_difference s = Ok s' /\ shows s' v' /\ v_flags v' = v_flags v /\
    overall v' = Nat.min (overall v + 1) (total_of v - 1).
Proof.
  intros s v SH. destruct (next_ok s v SH) as (s' & E & S' & _). exists s', (next_pos v). destruct (next_overall v (shows_in_range _ _ SH) (shows_sizes _ _ SH)). auto.
Qed.
Print Assumptions C40_next_difference_walks.
Theorem C40_previous_difference_walks :
  forall s v, shows s v -> exists s' v', slot_previous_difference s = Ok s' /\ shows s' v' /\ v_flags v' = v_flags v /\
    overall v' = (overall v - 1)%nat.
Proof.
  intros s v SH. destruct (previous_ok s v SH) as (s' & E & S' & _). exists s', (previous_pos v). destruct (previous_overall v (shows_in_range _ _ SH) (shows_sizes _ _ SH)). auto.
Qed.
Print Assumptions C40_previous_difference_walks.
Theorem C40_any_number_of_steps :
  forall n s v, shows s v ->
  (exists s' v', run_lops s (repeat LNext n) = Ok s' /\ shows s' v' /\ v_flags v' = v_flags v /\ overall v' = Nat.min (overall v + n) (total_of v - 1)) /\
  (exists s' v', run_lops s (repeat LPrevious n) = Ok s' /\ shows s' v' /\ v_flags v' = v_flags v /\ overall v' = (overall v - n)%nat).
Proof.
  induction n as [|n IH]; intros s v SH.
  - pose proof (overall_total v (shows_in_range _ _ SH)). split; exists s, v; (split; [reflexivity|]); (split; [exact SH|]); (split; [reflexivity|]); lia.
  - assert (TF : forall a b, v_flags a = v_flags b -> total_of a = total_of b) by (intros a b E; unfold total_of, sizes; now rewrite E). split.
    + destruct (C40_next_difference_walks s v SH) as (s1 & v1 & E1 & S1 & F1 & O1). destruct (proj1 (IH s1 v1 S1)) as (s' & v' & E' & S' & F' & O'). exists s', v'.
      cbn [repeat run_lops run_lop]. rewrite E1. cbn [bind]. split; [exact E'|]. split; [exact S'|]. split; [congruence|]. rewrite O', O1, (TF v1 v F1). lia.
    + destruct (C40_previous_difference_walks s v SH) as (s1 & v1 & E1 & S1 & F1 & O1). destruct (proj2 (IH s1 v1 S1)) as (s' & v' & E' & S' & F' & O'). exists s', v'.
      cbn [repeat run_lops run_lop]. rewrite E1. cbn [bind]. split; [exact E'|]. split; [exact S'|]. split; [congruence|]. rewrite O', O1. lia.
Qed.
Print Assumptions C40_any_number_of_steps.

(** * C41 *)
Theorem C41_next_and_previous_model :
  forall s v, shows s v ->
  (exists s' v', slot_next_model s = Ok s' /\ shows s' v' /\ v_flags v' = v_flags v /\ v_model v' = Nat.min (v_model v + 1) (length (v_flags v) - 1) /\ v_diff v' = 0%nat) /\
  (exists s' v', slot_previous_model s = Ok s' /\ shows s' v' /\ v_flags v' = v_flags v /\ v_model v' = (v_model v - 1)%nat /\ v_diff v' = 0%nat).
Proof.
  intros s v SH. destruct (shows_in_range _ _ SH) as [R1 R2]. split.
  - destruct (next_file_ok s v SH) as (s' & E & S' & _). eexists s', _. split; [exact E|]. split; [exact S'|]. unfold at_pos. cbn [v_flags v_model v_diff]. split; [reflexivity|]. split; [|reflexivity]. destruct (Nat.ltb_spec (S (v_model v)) (length (v_flags v))); lia.
  - destruct (previous_file_ok s v SH) as (s' & E & S' & _). eexists s', _. split; [exact E|]. split; [exact S'|]. auto.
Qed.
Print Assumptions C41_next_and_previous_model.

(** * C42 *)
Theorem C42_selection_consistent :
  forall ops s v v', shows s v -> vrun v ops = Some v' -> exists s', run_lops s ops = Ok s' /\ shows s' v' /\ observed s' v'.
Proof.
  intros ops s v v' SH V. destruct (run_lops_ok ops s v v' SH V) as (s' & E & S' & _). exists s'. split; [exact E|]. split; [exact S'|]. now apply observed_ok.
Qed.
Print Assumptions C42_selection_consistent.
(** From opening a diff, whatever the list was before. *)
Theorem C42_after_opening_a_diff :
  forall o s diff p ms i ops v', (forall l, Permutation (os_sort o l) l) -> ml_info s = Some i ->
  parse (os_sort o) (split_lines diff) = Ok p -> po_models p = Some ms ->
  vrun (opened ms false (ml_rw s)) ops = Some v' ->
  exists s1 s', parse_and_open o s diff = Ok (s1, true) /\
    holds s1 (fun k y => exists x, nth_error ms k = Some x /\ sel_only x y) (length ms) /\ observed s1 (opened ms false (ml_rw s)) /\
    run_lops s1 ops = Ok s' /\ observed s' v'.
Proof.
  intros o s diff p ms i ops v' HP I E EM V. destruct (parse_and_open_ok o s diff p ms i (conj HP (conj E EM)) I) as (s1 & E1 & S1 & _ & H1 & _).
  destruct (C42_selection_consistent ops s1 _ v' S1 V) as (s' & E' & _ & O'). exists s1, s'. split; [exact E1|]. split; [exact H1|]. split; [now apply observed_ok|]. auto.
Qed.
Print Assumptions C42_after_opening_a_diff.
(** From blending a diff into a file or a directory. *)
Theorem C42_after_blending :
  forall o s p ms i ops v', (forall l, Permutation (os_sort o l) l) -> ml_info s = Some i ->
  parse (os_sort o) (split_lines (os_read o (in_local_destination i))) = Ok p -> po_models p = Some ms ->
  (os_is_dir o (in_local_source i) || os_is_file o (in_local_source i))%bool = true ->
  vrun (opened ms (in_applied i) (ml_rw s)) ops = Some v' ->
  exists s1 s', open_and_blend o s = Ok (s1, true) /\
    holds s1 (fun k y => exists x x1 x2, nth_error ms k = Some x /\ sel_only x x1 /\ set_depth_and_applied (in_depth i) (in_applied i) x1 = Ok x2 /\
                original o (in_local_source i) k x2 y) (length ms) /\ observed s1 (opened ms (in_applied i) (ml_rw s)) /\
    run_lops s1 ops = Ok s' /\ observed s' v'.
Proof.
  intros o s p ms i ops v' HP I E EM K V. destruct (open_and_blend_ok o s p ms i I (conj HP (conj E EM))) as (s1 & E1 & S1 & H1 & _). rewrite K in E1.
  destruct (C42_selection_consistent ops s1 _ v' S1 V) as (s' & E' & _ & O'). exists s1, s'. split; [exact E1|]. split; [exact H1|]. split; [now apply observed_ok|]. auto.
Qed.
Print Assumptions C42_after_blending.
(** With an Info that was told nothing but the paths, a diff is blended with all its differences applied. *)
Theorem C42_blending_applies_by_default :
  forall o s p ms a b, (forall l, Permutation (os_sort o l) l) -> ml_info s = Some (with_locals default_info a b) ->
  parse (os_sort o) (split_lines (os_read o b)) = Ok p -> po_models p = Some ms -> (os_is_dir o a || os_is_file o a)%bool = true ->
  exists s1, open_and_blend o s = Ok (s1, true) /\
    observed s1 {| v_flags := map (fun m => (repeat true (length (dm_diffs m)), repeat false (length (dm_diffs m)))) ms;
                   v_model := 0; v_diff := 0; v_rw := ml_rw s |}.
Proof.
  intros o s p ms a b HP I E EM K. destruct (C42_after_blending o s p ms _ [] _ HP I E EM K eq_refl) as (s1 & _ & E1 & _ & O1 & _). exists s1. split; [exact E1|exact O1].
Qed.
Print Assumptions C42_blending_applies_by_default.

(** * C43 *)
Record navigation_right (s : mlist) (v : view) : Prop := {
  nr_previous_file : ac_previous_file (ml_act s) = Nat.ltb 0 (v_model v);
  nr_next_file : ac_next_file (ml_act s) = Nat.ltb (S (v_model v)) (length (v_flags v));
  nr_previous : ac_previous (ml_act s) = Nat.ltb 0 (overall v);
  nr_next : ac_next (ml_act s) = Nat.ltb (S (overall v)) (total_of v) }.
Lemma actions_navigation s v : actions_right s v -> navigation_right s v. Proof. intros []. split; assumption. Qed.
Lemma sizes_update fs i f g : nth_error fs i = Some f -> length (fst g) = length (fst f) -> map (fun f => length (fst f)) (update fs i g) = map (fun f : list bool * list bool => length (fst f)) fs.
Proof. revert i. induction fs as [|h fs IH]; intros [|i] E L; cbn in *; try discriminate; [congruence|]. f_equal. eauto. Qed.
Lemma navigation_flags s s' v fs : map (fun f : list bool * list bool => length (fst f)) fs = sizes v ->
  ac_previous_file (ml_act s') = ac_previous_file (ml_act s) -> ac_next_file (ml_act s') = ac_next_file (ml_act s) -> ac_previous (ml_act s') = ac_previous (ml_act s) -> ac_next (ml_act s') = ac_next (ml_act s) ->
  navigation_right s v -> navigation_right s' (with_flags v fs).
Proof.
  intros E A B C D [N1 N2 N3 N4]. assert (L : length fs = length (v_flags v)) by (apply (f_equal (@length nat)) in E; unfold sizes in E; rewrite !map_length in E; exact E).
  assert (SZ : sizes (with_flags v fs) = sizes v) by exact E.
  assert (OV : overall (with_flags v fs) = overall v) by (unfold overall; now rewrite SZ). assert (TO : total_of (with_flags v fs) = total_of v) by (unfold total_of; now rewrite SZ).
  split; rewrite ?OV, ?TO; cbn [with_flags v_model v_flags]; rewrite ?L; congruence.
Qed.
Lemma sizes_save_all envs : forall fs k, map (fun f : list bool * list bool => length (fst f)) (after_save_all envs k fs) = map (fun f => length (fst f)) fs.
Proof. induction fs as [|f fs IH]; intros k; [reflexivity|]. cbn [after_save_all map after_save fst]. destruct (_ || _)%bool; [now rewrite IH|reflexivity]. Qed.
Lemma navigation_step s v o v' s' : shows s v -> navigation_right s v -> vstep v o = Some v' -> run_lop s o = Ok s' -> navigation_right s' v'.
Proof.
  intros SH N V E. destruct (run_lop_ok s v o v' SH V) as (s1 & E1 & S1 & _ & A & _). rewrite E in E1. injection E1 as <-. destruct (refreshes o) eqn:R; [now apply actions_navigation, A|clear A].
  destruct (shows_facts s v SH) as (l & m & x & d & f & y & F). assert (FL := fa_flags _ _ _ _ _ _ _ _ F). assert (NO := fa_now _ _ _ _ _ _ _ _ F).
  destruct o as [| | | |i k|k|b|b| | |b|e|envs|b]; try discriminate R; cbn [vstep run_lop] in *; injection V as <-.
  - destruct (apply_ok s v b SH) as (s1 & E1 & _ & _ & _ & AC). rewrite E in E1. injection E1 as <-. unfold apply_here, set_now. eapply navigation_flags; [|rewrite AC; reflexivity..|exact N].
    eapply sizes_update; [exact FL|]. cbn. now rewrite update_length, NO.
  - destruct (apply_all_slot_ok s v b SH) as (s1 & E1 & _ & _ & _ & AC). rewrite E in E1. injection E1 as <-. unfold apply_everywhere, set_now. eapply navigation_flags; [|rewrite AC; reflexivity..|exact N].
    eapply sizes_update; [exact FL|]. cbn. now rewrite map_length, NO.
  - assert (AC : forall g : actions -> bool, (forall a b c d e p q r t, g (mk_actions a b c d e p q r t) = g (mk_actions a b c d false p q r t)) -> g (ml_act s') = g (ml_act s)).
    { intros g G. unfold slot_save in E. destruct (ml_sel s); [|injection E as <-; reflexivity]. unfold save_model in E. destruct (model_of s n) as [z| |]; try discriminate. cbn [bind] in E.
      destruct (save_destination e z) as [o| |]; try discriminate. cbn [bind] in E. injection E as <-. destruct (so_error o); cbn; match goal with |- context [if ?c then _ else _] => destruct c end; cbn; destruct (ml_act s); first [reflexivity|symmetry; apply G]. }
    eapply navigation_flags; [|apply AC; reflexivity..|exact N]. eapply sizes_update; [exact FL|]. cbn. now rewrite NO.
  - destruct (fa_tidy _ _ _ _ _ _ _ _ F) as (T1 & T2 & T3). unfold save_all_models in E. destruct (model_count s =? 0).
    + cbn [bind fst] in E. injection E as <-. eapply navigation_flags; [|reflexivity..|exact N]. apply sizes_save_all.
    + unfold the_list in E. rewrite T1 in E. cbn [bind] in E. destruct (save_models_ok envs l 0 s (v_flags v) T2 T3) as (s2 & b & E2 & _ & _ & _ & (_ & _ & _ & _ & _ & _ & AC)). rewrite E2 in E. cbn [bind fst] in E. injection E as <-.
      eapply navigation_flags; [|rewrite AC; reflexivity..|exact N]. apply sizes_save_all.
  - unfold set_read_write in E. destruct (Bool.eqb_spec (ml_rw s) b) as [EB|NB].
    + injection E as <-. destruct N as [N1 N2 N3 N4]. split; assumption.
    + apply actions_navigation. assert (S2 : shows (with_rw s b) (mk_view (v_flags v) (v_model v) (v_diff v) b)).
      { apply shows_split in SH as (_ & l' & m' & T & A & D). apply shows_split. split; [reflexivity|]. exists l', m'. split; [eapply tidy_ext; [..|exact T]; reflexivity|]. split; [exact A|]. eapply at_diff_ext; [..|exact D]; reflexivity. }
      destruct (update_actions_ok _ _ S2) as (a & E2 & A2). rewrite E2 in E. injection E as <-. exact A2.
Qed.
Theorem C43_navigation_actions :
  forall ops s v v', shows s v -> navigation_right s v -> vrun v ops = Some v' -> exists s', run_lops s ops = Ok s' /\ navigation_right s' v'.
Proof.
  induction ops as [|o ops IH]; intros s v v' SH N V; cbn [vrun] in V; [injection V as <-; exists s; auto|]. destruct (vstep v o) as [v1|] eqn:E; [|discriminate].
  destruct (run_lop_ok s v o v1 SH E) as (s1 & E1 & S1 & _). destruct (IH s1 v1 v' S1 (navigation_step _ _ _ _ _ SH N E E1) V) as (s' & E' & N'). exists s'. cbn [run_lops]. rewrite E1. cbn [bind]. auto.
Qed.
Print Assumptions C43_navigation_actions.
Theorem C43_actions_up_to_date :
  forall ops o s v v', shows s v -> vrun v (ops ++ [o]) = Some v' -> refreshes o = true -> exists s', run_lops s (ops ++ [o]) = Ok s' /\ actions_right s' v'.
Proof.
  induction ops as [|q ops IH]; intros o s v v' SH V R; cbn [app vrun run_lops] in *.
  - destruct (vstep v o) as [v1|] eqn:E; [|discriminate]. injection V as <-. destruct (run_lop_ok s v o v1 SH E) as (s1 & E1 & _ & _ & A & _). exists s1. rewrite E1. cbn [bind]. auto.
  - destruct (vstep v q) as [v1|] eqn:E; [|discriminate]. destruct (run_lop_ok s v q v1 SH E) as (s1 & E1 & S1 & _). rewrite E1. cbn [bind]. eapply IH; eauto.
Qed.
Print Assumptions C43_actions_up_to_date.
(** Right after opening, and when the list becomes read-only or read-write. *)
Theorem C43_actions_after_opening :
  forall o s diff p ms i, (forall l, Permutation (os_sort o l) l) -> ml_info s = Some i ->
  parse (os_sort o) (split_lines diff) = Ok p -> po_models p = Some ms ->
  exists s1, parse_and_open o s diff = Ok (s1, true) /\ ml_has_save s1 = ml_has_save s /\ shows s1 (opened ms false (ml_rw s)) /\ actions_right s1 (opened ms false (ml_rw s)).
Proof.
  intros o s diff p ms i HP I E EM. destruct (parse_and_open_ok o s diff p ms i (conj HP (conj E EM)) I) as (s1 & E1 & S1 & A1 & _ & _ & HS & _). exists s1. auto.
Qed.
Print Assumptions C43_actions_after_opening.
Theorem C43_read_write :
  forall s v b, shows s v -> actions_right s v -> exists s', set_read_write s b = Ok s' /\ actions_right s' (mk_view (v_flags v) (v_model v) (v_diff v) b).
Proof.
  intros s v b SH A. assert (RW : ml_rw s = v_rw v) by (destruct SH; assumption). unfold set_read_write. destruct (Bool.eqb_spec (ml_rw s) b) as [EB|NB].
  - exists s. split; [reflexivity|]. replace b with (v_rw v) by congruence. now destruct v.
  - assert (S2 : shows (with_rw s b) (mk_view (v_flags v) (v_model v) (v_diff v) b)).
    { apply shows_split in SH as (_ & l' & m' & T & A' & D). apply shows_split. split; [reflexivity|]. exists l', m'. split; [eapply tidy_ext; [..|exact T]; reflexivity|]. split; [exact A'|]. eapply at_diff_ext; [..|exact D]; reflexivity. }
    destruct (update_actions_ok _ _ S2) as (a & E2 & A2). eauto.
Qed.
Print Assumptions C43_read_write.
(** * C59 *)
Theorem C59_selection_announced :
  forall s v o v', shows s v -> vstep v o = Some v' -> moves o = true -> exists s', run_lop s o = Ok s' /\ shows s' v' /\ told s s' v v'.
Proof. intros s v o v' SH V M. destruct (run_lop_ok s v o v' SH V) as (s' & E & S' & _ & _ & T). exists s'. auto. Qed.
Print Assumptions C59_selection_announced.

(** * C44 *)
(** A difference that is not in the selected model (or none): the first one is taken. *)
Theorem C44_foreign_difference :
  forall s v m x d, shows s v -> ml_sel s = Some m -> model_of s m = Ok x -> (forall k, d = Some (m, k) -> ~ In k (dm_diffs x)) ->
  exists s', slot_difference_changed s d = Ok s' /\ shows s' (at_pos v (v_model v) 0) /\ actions_right s' (at_pos v (v_model v) 0).
Proof.
  intros s v m x d SH SM EX NI. destruct (shows_facts s v SH) as (l & m' & x' & d0 & f & y & F). assert (m' = m) as -> by (destruct (fa_at _ _ _ _ _ _ _ _ F) as (_ & A & _); congruence).
  assert (x' = x) as -> by (pose proof (fa_model _ _ _ _ _ _ _ _ F); congruence). unfold slot_difference_changed. cbn [with_diff ml_sel]. rewrite SM. set (s1 := with_diff s d).
  assert (T1 : tidy s1 l (v_flags v)) by (eapply tidy_ext; [..|apply F]; reflexivity). assert (A1 : at_model s1 l (v_model v) m) by apply F. assert (X1 : model_of s1 m = Ok x) by exact EX.
  assert (Q : exists s2, select_in s1 m d = Ok (s2, false) /\ tidy s2 l (v_flags v) /\ at_model s2 l (v_model v) m /\ quiet s1 s2).
  { unfold select_in. rewrite X1. cbn [bind]. assert (TP : tidy (put_model s1 m x) l (v_flags v)) by (eapply tidy_same; [exact T1|apply A1|apply F|apply F]).
    destruct d as [[m' k]|]; [destruct (Nat.eqb_spec m m') as [<-|NE]|].
    - unfold set_selected_difference. rewrite (fa_sel _ _ _ _ _ _ _ _ F). cbn [sel_eqb]. specialize (NI k eq_refl).
      destruct (Nat.eqb_spec k d0) as [->|ND]; [exfalso; apply NI; eapply nth_error_In; apply F|].
      destruct (find_id k (dm_diffs x)) as [j|] eqn:FI.
      + exfalso. apply NI. clear -FI. revert j FI. induction (dm_diffs x) as [|a l IH]; cbn; [discriminate|]. intros j. destruct (Nat.eqb_spec k a) as [->|]; [now left|]. destruct (find_id k l); [|discriminate]. intros _. right. eapply IH. reflexivity.
      + eexists. split; [reflexivity|]. split; [exact TP|]. split; [exact A1|repeat split].
    - exists s1. split; [reflexivity|]. split; [exact T1|]. split; [exact A1|repeat split].
    - unfold set_selected_difference. rewrite (fa_sel _ _ _ _ _ _ _ _ F). cbn [sel_eqb]. eexists. split; [reflexivity|]. split; [exact TP|]. split; [exact A1|repeat split]. }
  destruct Q as (s2 & E2 & T2 & A2 & Q2). rewrite E2. cbn [bind]. destruct (to_first_ok s2 l _ _ m T2 A2) as (s3 & E3 & T3 & A3 & D3 & Q3). rewrite E3. cbn [bind].
  assert (SH3 : shows s3 (at_pos v (v_model v) 0)). { eapply shows_at; eauto. destruct Q3 as (-> & _), Q2 as (-> & _). destruct SH; assumption. }
  destruct (told_ok (SetSelectionOf d) s3 _ SH3) as (a & E4 & A4 & S4). eauto.
Qed.
Print Assumptions C44_foreign_difference.
(** A model that is not in the list is selected all the same. *)
Theorem C44_foreign_model_selected :
  forall s l m x d now saved k, ml_models s = Some l -> ~ In m l -> model_of s m = Ok x -> model_state x now saved -> nth_error (dm_diffs x) k = Some d ->
  exists s', slot_selection_changed s (Some m) (Some (m, d)) = Ok s' /\ ml_sel s' = Some m /\ current_model s' = Ok (-1).
Proof.
  intros s l m x d now saved k ML NI EX MS ND. unfold slot_selection_changed, the_list. cbn [with_sel ml_models]. rewrite ML. cbn [bind].
  assert (FN : find_id m l = None). { destruct (find_id m l) as [j|] eqn:FI; [|reflexivity]. exfalso. apply NI. clear -FI. revert j FI. induction l as [|a l IH]; cbn; [discriminate|]. intros j. destruct (Nat.eqb_spec m a) as [->|]; [now left|]. destruct (find_id m l); [|discriminate]. intros _. right. eapply IH. reflexivity. }
  assert (IX : index_in (Some m) l = -1) by (unfold index_in; now rewrite FN). rewrite IX.
  (* the invariant of the three dereferencing steps *)
  set (good s1 := ml_models s1 = Some l /\ ml_sel s1 = Some m /\ ml_diff s1 = Some (m, d) /\ ml_index s1 = -1 /\ exists x1, model_of s1 m = Ok x1 /\ model_state x1 now saved /\ nth_error (dm_diffs x1) k = Some d).
  assert (SEL : forall s1, good s1 -> exists s2, select_in s1 m (Some (m, d)) = Ok (s2, true) /\ good s2).
  { intros s1 (G1 & G2 & G3 & G4 & x1 & X1 & M1 & N1). unfold select_in. rewrite X1. cbn [bind]. rewrite Nat.eqb_refl. unfold set_selected_difference.
    destruct (sel_eqb (Some d) (dm_sel x1)).
    - eexists. split; [reflexivity|]. unfold good. repeat (split; [assumption|]). exists x1. split; [eapply model_put; exact X1|auto].
    - rewrite (find_id_nodup _ _ _ (ms_nodup _ _ _ M1) N1). eexists. split; [reflexivity|]. repeat (split; [assumption|]). eexists. split; [eapply model_put; exact X1|]. split; [|exact N1].
      apply ms_select; [exact M1|]. intros d' ED. injection ED as <-. split; [lia|]. now rewrite Nat2Z.id. }
  assert (ACT : forall s1, good s1 -> exists a, update_actions s1 = Ok (with_act s1 a)).
  { intros s1 (G1 & G2 & G3 & G4 & x1 & X1 & M1 & N1). destruct (ms_diff _ _ _ _ _ M1 N1) as (y & DY & _). unfold update_actions, has_prev_diff, has_next_diff, has_next_model, has_prev_model, selected, the_list. rewrite G1, G2, G3. cbn [bind].
    rewrite X1. cbn [bind snd]. unfold difference_of. rewrite X1. cbn [bind]. rewrite DY. cbn [bind]. rewrite (unsaved_iff _ _ _ M1). cbn [bind].
    destruct (ml_has_save s1), (ml_rw s1); cbn [bind]; destruct (0 <? dm_index x1); cbn [bind]; destruct (_ <? Z.of_nat (length (dm_diffs x1)) - 1); cbn [bind]; eexists; reflexivity. }
  set (s1 := with_diff (with_index (with_sel s (Some m)) (-1)) (Some (m, d))). assert (G1 : good s1) by (unfold good; repeat (split; [reflexivity || assumption|]); exists x; auto).
  destruct (SEL s1 G1) as (s2 & E2 & G2). rewrite E2. cbn [bind fst]. unfold set_selected_model. pose proof G2 as (H1 & H2 & H3 & H4 & H5). rewrite H2. cbn [sel_eqb]. rewrite Nat.eqb_refl.
  destruct (ACT s2 G2) as (a & E3). rewrite E3. cbn [bind]. change (ml_sel (with_act s2 a)) with (ml_sel s2). rewrite H2. change (ml_diff (with_act s2 a)) with (ml_diff s2). rewrite H3.
  assert (G3 : good (with_act s2 a)) by exact G2. destruct (SEL _ G3) as (s3 & E4 & G4). rewrite E4. cbn [bind].
  set (s4 := emit (SetSelection (Some m) (Some (m, d))) s3). assert (G5 : good s4) by exact G4. pose proof G5 as (K1 & K2 & K3 & K4 & x4 & X4 & M4 & N4).
  assert (SB : exists g, status_bar s4 = Ok (emit g s4)).
  { unfold status_bar, find_model, selected, the_list, difference_count. rewrite K1, K2. cbn [bind]. rewrite X4. cbn [bind]. eexists. reflexivity. }
  destruct SB as (g & SB). rewrite SB. cbn [bind]. assert (G6 : good (emit g s4)) by exact G5. destruct (ACT _ G6) as (b & E6). rewrite E6. eexists. split; [reflexivity|]. split; [exact K2|].
  unfold current_model, find_model, the_list. cbn [with_act emit ml_models ml_sel]. change (ml_models (with_act (emit g s4) b)) with (ml_models s4). change (ml_sel (with_act (emit g s4) b)) with (ml_sel s4). rewrite K1, K2. cbn [bind]. now rewrite IX.
Qed.
Print Assumptions C44_foreign_model_selected.

(** * Examples: two files, three differences *)
Definition text_of (l : list string) : str := concat (map (fun s => lit s ++ [NL]) l).
Definition two_files : str := text_of
  ["--- a/f.c	2020"; "+++ b/f.c	2021"; "@@ -1,5 +1,5 @@"; " one"; "-two"; "+zwei"; " three"; "-four"; "+vier"; " five";
   "--- a/g.c	2020"; "+++ b/g.c	2021"; "@@ -1,2 +1,3 @@"; " one"; "+more"; " two"]%string.
Definition world : outside := mk_outside (fun l => l) (fun _ => []) (fun _ => false) (fun _ => false) (fun _ => false) (fun _ => false) (fun a b => (a ++ lit "/" ++ b)%list).
Definition ready : mlist := slot_kompare_info (new_mlist true) default_info.
Definition three : mlist := match parse_and_open world ready two_files with Ok (s, _) => s | _ => ready end.
Definition three_view : view := mk_view [([false; false], [false; false]); ([false], [false])] 0 0 true.
Lemma open_two s i : ml_info s = Some i -> ml_rw s = true -> exists s', parse_and_open world s two_files = Ok (s', true) /\ shows s' three_view /\ actions_right s' three_view.
Proof.
  intros I RW.
  assert (H : exists p ms, parse (os_sort world) (split_lines two_files) = Ok p /\ po_models p = Some ms /\ opened ms false true = three_view).
  { destruct (parse (os_sort world) (split_lines two_files)) as [p| |] eqn:E; [|vm_compute in E; discriminate E..]. exists p. destruct (po_models p) as [ms|] eqn:EM.
    - exists ms. split; [reflexivity|]. split; [reflexivity|]. assert (Q : po_models p = po_models match parse (os_sort world) (split_lines two_files) with Ok p => p | _ => p end) by (now rewrite E). rewrite EM in Q. vm_compute in Q. injection Q as ->. vm_compute. reflexivity.
    - assert (Q : po_models p = po_models match parse (os_sort world) (split_lines two_files) with Ok p => p | _ => p end) by (now rewrite E). rewrite EM in Q. vm_compute in Q. discriminate Q. }
  destruct H as (p & ms & E & EM & OV).
  destruct (C43_actions_after_opening world s two_files p ms i (fun l => Permutation_refl l) I E EM) as (s1 & E1 & _ & S1 & A1). rewrite RW, OV in S1, A1. eauto.
Qed.
Example C40_example : parse_and_open world ready two_files = Ok (three, true) /\ shows three three_view /\ actions_right three three_view /\ overall three_view = 0%nat /\ total_of three_view = 3%nat.
Proof.
  destruct (open_two ready default_info eq_refl eq_refl) as (s1 & E1 & S1 & A1). assert (Q : three = s1) by (unfold three; now rewrite E1). rewrite Q. auto.
Qed.
(** Forward over all of them and back; apply, save, navigate. *)
Example C42_example : vrun three_view [LNext; LActApply; LActApply; LPreviousFile; LApplyAll true; LSave (mk_save_env true true true true true true false); LNextFile; LReadWrite false; LSelect 0 1] =
  Some (mk_view [([true; true], [false; false]); ([true], [false])] 0 1 false).
Proof. reflexivity. Qed.
(** C44 is false of the code: open the diff again; the models of the first time are not deleted, and one of them is
    selected although it is not in the list. *)
Lemma three_info : exists i, ml_info three = Some i /\ ml_rw three = true.
Proof. eexists. vm_compute. split; reflexivity. Qed.
Theorem C44_foreign_model_refuted :
  exists s m d s', parse_and_open world three two_files = Ok (s, true) /\ observed s three_view /\ match ml_models s with Some l => ~ In m l | None => False end /\
    slot_selection_changed s (Some m) (Some (m, d)) = Ok s' /\ ml_sel s' = Some m /\ current_model s' = Ok (-1).
Proof.
  destruct three_info as (i & I & RW). destruct (open_two three i I RW) as (s & E & SH & _). exists s, 0%nat, 1%nat.
  assert (X : (do r <- parse_and_open world three two_files; do s' <- slot_selection_changed (fst r) (Some 0%nat) (Some (0%nat, 1%nat)); do c <- current_model s'; Ok (ml_sel s', c, ml_models (fst r))) = Ok (Some 0%nat, -1, Some [2; 3]%nat)) by (vm_compute; reflexivity).
  rewrite E in X. cbn [bind fst] in X. destruct (slot_selection_changed s (Some 0%nat) (Some (0%nat, 1%nat))) as [s'| |]; try discriminate X. exists s'. cbn [bind] in X.
  destruct (current_model s') as [c| |]; try discriminate X. cbn [bind] in X. injection X as X1 X2 X3. split; [exact E|]. split; [now apply observed_ok|]. split; [rewrite X3; cbn; lia|]. split; [reflexivity|]. split; congruence.
Qed.
Print Assumptions C44_foreign_model_refuted.
(** Nor does no difference at all give the first one, in a model that was left before. *)
Theorem C44_no_difference_refuted :
  exists s s', run_lops three [LNext; LNext] = Ok s /\ slot_selection_changed s (Some 0%nat) None = Ok s' /\ current_difference s' = Ok (-1) /\ current_model s' = Ok 0 /\
    match slot_action_apply s' with UB _ => True | _ => False end.
Proof.
  assert (X : (do s <- run_lops three [LNext; LNext]; do s' <- slot_selection_changed s (Some 0%nat) None; do c <- current_difference s'; do k <- current_model s'; Ok (c, k, match slot_action_apply s' with UB _ => true | _ => false end)) = Ok (-1, 0, true)) by (vm_compute; reflexivity).
  destruct (run_lops three [LNext; LNext]) as [s| |]; try discriminate X. cbn [bind] in X. exists s. destruct (slot_selection_changed s (Some 0%nat) None) as [s'| |]; try discriminate X. cbn [bind] in X. exists s'.
  destruct (current_difference s') as [c| |]; try discriminate X. cbn [bind] in X. destruct (current_model s') as [k| |]; try discriminate X. cbn [bind] in X. injection X as -> -> X. repeat (split; [reflexivity|]). destruct (slot_action_apply s'); try discriminate X. exact I.
Qed.
Print Assumptions C44_no_difference_refuted.

(** * C45 *)
(** What is true after a failed opening. *)
Theorem C45_failed_open :
  forall o s diff p i, ml_info s = Some i -> parse (os_sort o) (split_lines diff) = Ok p -> po_models p = None ->
  exists s', parse_and_open o s diff = Ok (s', false) /\ model_count s' = 0 /\ has_unsaved_changes s' = Ok false /\ ml_models s' = None /\
    ml_sel s' = ml_sel s /\ ml_diff s' = ml_diff s /\ ml_act s' = ml_act s /\
    exists pre, ml_out s' = ml_out s ++ pre ++ [Error NotParsed].
Proof.
  intros o s diff p i I E N. unfold parse_and_open. set (s0 := emit (Status Parsing) (clear s)).
  assert (W : ml_info s0 = Some i /\ ml_sel s0 = ml_sel s /\ ml_diff s0 = ml_diff s /\ ml_act s0 = ml_act s /\ exists g, ml_out s0 = ml_out s ++ g).
  { unfold s0, clear. destruct (ml_models s); (split; [exact I|]); (split; [reflexivity|]); (split; [reflexivity|]); (split; [reflexivity|]); eexists; cbn; rewrite <- app_assoc; reflexivity. }
  destruct W as (I0 & W1 & W2 & W3 & g & W4). destruct (parse_output_fails o s0 diff p i (conj E N) I0) as (s1 & E1 & M1 & S1 & D1 & _ & A1 & _ & O1 & _). rewrite E1. cbn [bind].
  eexists. split; [reflexivity|]. unfold model_count, has_unsaved_changes. cbn [emit ml_models ml_sel ml_diff ml_act ml_out]. rewrite M1. repeat (split; [congruence|]). exists (g ++ [DiffString diff]). rewrite O1, W4, <- !app_assoc. reflexivity.
Qed.
Print Assumptions C45_failed_open.
(** What openDiff() answers: true exactly when models could be read from the file; without a file name nothing happens and it answers false. *)
Theorem C45_open_answers :
  forall o s file p i, (forall l, Permutation (os_sort o l) l) -> ml_info s = Some i -> parse (os_sort o) (split_lines (os_read o file)) = Ok p ->
  (file = [] -> open_diff o s file = Ok (s, false)) /\
  (file <> [] -> exists s' b, open_diff o s file = Ok (s', b) /\ (b = true <-> po_models p <> None) /\ (b = true <-> model_count s' <> 0)).
Proof.
  intros o s file p i HP I E. split; [intros ->; reflexivity|]. intros NE. unfold open_diff. destruct file as [|c file]; [congruence|]. destruct (po_models p) as [ms|] eqn:EM.
  - destruct (parse_and_open_ok o s _ p ms i (conj HP (conj E EM)) I) as (s' & E1 & _ & _ & HO & _). exists s', true. split; [exact E1|]. split; [split; [congruence|auto]|]. split; [intros _|auto].
    destruct HO as (l & M & N & _). unfold model_count. rewrite M. destruct (fresh_states _ _ _ _ HP E EM) as [_ NM]. destruct l; [destruct ms; [congruence|discriminate N]|cbn; lia].
  - destruct (C45_failed_open o s _ p i I E EM) as (s' & E1 & C & _). exists s', false. split; [exact E1|]. split; [split; [discriminate|congruence]|]. split; [discriminate|intros Q; congruence].
Qed.
Print Assumptions C45_open_answers.
(** A list that has never opened anything is as it was: everything is disabled, nothing is selected. *)
Theorem C45_first_open_fails_partial :
  forall o rw i diff p, parse (os_sort o) (split_lines diff) = Ok p -> po_models p = None ->
  exists s', parse_and_open o (slot_kompare_info (new_mlist rw) i) diff = Ok (s', false) /\ ml_act s' = mk_actions false false false false false false false false false /\
    ml_sel s' = None /\ difference_count s' = Ok (-1) /\ applied_count s' = Ok (-1) /\ current_difference s' = Ok (-1) /\ model_count s' = 0.
Proof.
  intros o rw i diff p E N. destruct (C45_failed_open o (slot_kompare_info (new_mlist rw) i) diff p i eq_refl E N) as (s' & E1 & C1 & _ & _ & S1 & _ & A1 & _). exists s'. split; [exact E1|]. split; [exact A1|].
  split; [exact S1|]. unfold difference_count, applied_count, current_difference. rewrite S1. auto.
Qed.
Print Assumptions C45_first_open_fails_partial.
(** False of the code: after a list has been shown, the actions stay enabled, and triggering one, or asking for the current
    model, dereferences a null pointer. *)
Theorem C45_failed_open_usable_refuted :
  exists s, parse_and_open world three (text_of ["no diff"%string]) = Ok (s, false) /\ ac_next_file (ml_act s) = true /\ ac_next (ml_act s) = true /\
    match slot_next_model s with UB _ => True | _ => False end /\ match current_model s with UB _ => True | _ => False end.
Proof.
  assert (X : (do r <- parse_and_open world three (text_of ["no diff"%string]); let '(s, b) := r in Ok (b, ac_next_file (ml_act s), ac_next (ml_act s), match slot_next_model s with UB _ => true | _ => false end, match current_model s with UB _ => true | _ => false end)) = Ok (false, true, true, true, true)) by (vm_compute; reflexivity).
  destruct (parse_and_open world three (text_of ["no diff"%string])) as [[s b]| |]; try discriminate X. cbn [bind] in X. injection X as -> X1 X2 X3 X4. exists s. split; [reflexivity|]. split; [exact X1|]. split; [exact X2|].
  split; [destruct (slot_next_model s); try discriminate X3; exact I|destruct (current_model s); try discriminate X4; exact I].
Qed.
Print Assumptions C45_failed_open_usable_refuted.

(** * C46 *)
Definition starts_diff (s s' : mlist) (i : info) : Prop :=
  ml_info s' = Some i /\ ml_process s' = true /\ model_count s' = 0 /\ ml_heap s' = ml_heap s /\ ml_sel s' = ml_sel s /\
  exists l, ml_out s' = ml_out s ++ [ModelsChanged l; Status RunningDiff].
Theorem C46_compare_dispatches :
  forall o s i m sw j, ml_info s = Some i -> dispatch (kind_of o (in_local_source i)) (kind_of o (in_local_destination i)) = (m, sw, j) ->
  exists i', in_mode i' = m /\ in_depth i' = in_depth i /\ in_applied i' = in_applied i /\
    (in_local_source i', in_local_destination i', in_source i', in_destination i') =
      (if sw : bool then (in_local_destination i, in_local_source i, in_destination i, in_source i)
       else (in_local_source i, in_local_destination i, in_source i, in_destination i)) /\
    match j with
    | RunDiff => exists s', compare o s = Ok (s', true) /\ starts_diff s s' i'
    | BlendIn => compare o s = open_and_blend o (with_info s (Some i')) /\
                 kind_of o (in_local_destination i') <> ADirectory /\
                 (m = BlendingDir -> kind_of o (in_local_source i') = ADirectory) /\
                 (m = BlendingFile -> kind_of o (in_local_source i') = APlainFile /\ kind_of o (in_local_destination i') = ADiff)
    end.
Proof.
  intros o s i m sw j I D. unfold compare, the_info. rewrite I. cbn [bind]. unfold kind_of in D.
  assert (RUN : forall i', starts_diff s (compare_mode (with_info s (Some i'))) i').
  { intros i'. unfold starts_diff, compare_mode, clear. cbn [with_info ml_models]. destruct (ml_models s) eqn:EM; (split; [reflexivity|]); (split; [reflexivity|]); (split; [unfold model_count; cbn; rewrite ?EM; reflexivity|]); (split; [reflexivity|]); (split; [reflexivity|]); eexists; cbn; rewrite <- app_assoc; reflexivity. }
  destruct (os_is_dir o (in_local_source i)) eqn:A, (os_is_dir o (in_local_destination i)) eqn:B; cbn [andb negb];
    [|destruct (os_is_diff o (in_local_destination i)) eqn:Q|destruct (os_is_diff o (in_local_source i)) eqn:P
     |destruct (os_is_diff o (in_local_source i)) eqn:P, (os_is_diff o (in_local_destination i)) eqn:Q];
    cbn [dispatch andb negb] in D |- *; injection D as <- <- <-;
    eexists; (split; [|split; [|split; [|split; [|first [eexists; split; [reflexivity|apply RUN]|split; [reflexivity|]]]]]]); try reflexivity; unfold kind_of; cbn; rewrite ?A, ?B, ?P, ?Q;
    (split; [discriminate|split; intros; try discriminate; repeat split; reflexivity]).
Qed.
Print Assumptions C46_compare_dispatches.
Example C46_example :
  let o := mk_outside (fun l => l) (fun _ => two_files) (fun p => starts_with (lit "/d") p) (fun _ => true) (fun _ => true) (fun p => starts_with (lit "/p") p) (fun a b => (a ++ lit "/" ++ b)%list) in
  dispatch (kind_of o (lit "/p.diff")) (kind_of o (lit "/dir")) = (BlendingDir, true, BlendIn) /\
  dispatch (kind_of o (lit "/p.diff")) (kind_of o (lit "/x.c")) = (BlendingFile, true, BlendIn) /\
  dispatch (kind_of o (lit "/p.diff")) (kind_of o (lit "/p2.diff")) = (ComparingFiles, false, RunDiff).
Proof. vm_compute. auto. Qed.

(** Refreshing runs diff again in every mode, swapping only when two files or two directories are compared. *)
Theorem C46_refresh_and_swap :
  forall s i, ml_info s = Some i ->
  (exists s', refresh s = Ok s' /\ starts_diff s s' i) /\
  (in_mode i = ComparingFiles \/ in_mode i = ComparingDirs -> exists s', swap s = Ok s' /\ starts_diff s s' i) /\
  (in_mode i <> ComparingFiles -> in_mode i <> ComparingDirs -> swap s = Ok s).
Proof.
  intros s i I.
  assert (RUN : starts_diff s (compare_mode s) i).
  { unfold starts_diff, compare_mode, clear. destruct (ml_models s) eqn:EM; (split; [exact I|]); (split; [reflexivity|]); (split; [unfold model_count; cbn; rewrite ?EM; reflexivity|]); (split; [reflexivity|]); (split; [reflexivity|]); eexists; cbn; rewrite <- app_assoc; reflexivity. }
  unfold refresh, swap, the_info. rewrite I. cbn [bind]. split; [eauto|]. split.
  - intros [-> | ->]; eauto.
  - intros A B. destruct (in_mode i); congruence.
Qed.
Print Assumptions C46_refresh_and_swap.

(** * C49 *)
Theorem C49_swap_exchanges_sides :
  forall i, let j := swap_source_with_destination i in
  (in_source j, in_local_source j, in_source_temp j) = (in_destination i, in_local_destination i, in_destination_temp i) /\
  (in_destination j, in_local_destination j, in_destination_temp j) = (in_source i, in_local_source i, in_source_temp i) /\
  (in_mode j, in_diff_mode j, in_format j, in_generator j, in_depth j, in_applied j) = (in_mode i, in_diff_mode i, in_format i, in_generator i, in_depth i, in_applied i) /\
  swap_source_with_destination j = i.
Proof. intros []. cbn. auto. Qed.
Print Assumptions C49_swap_exchanges_sides.

(** * C50 *)
(** What the end of the diff process does: [code] and [st] are those of QProcess. *)
Theorem C50_process_crashed :
  forall o s code out err, ml_process s = true -> exists s', slot_diff_process_finished o s (process_success code CrashExit) CrashExit out err = Ok s' /\
    s' = with_process (emit (Error (ProcessError err)) s) false.
Proof. intros o s code out err P. unfold slot_diff_process_finished, process_success. rewrite P. cbn. eauto. Qed.
Print Assumptions C50_process_crashed.
Theorem C50_files_identical :
  forall o s out err, ml_process s = true -> exists s', slot_diff_process_finished o s (process_success 0 NormalExit) NormalExit out err = Ok s' /\
    s' = with_process (emit (Error Identical) s) false.
Proof. intros o s out err P. unfold slot_diff_process_finished, process_success. rewrite P. cbn. eauto. Qed.
Print Assumptions C50_files_identical.
Theorem C50_differences_shown :
  forall o s code p ms i out err, code <> 0 -> ml_process s = true -> ml_info s = Some i -> (forall l, Permutation (os_sort o l) l) ->
  parse (os_sort o) (split_lines out) = Ok p -> po_models p = Some ms ->
  exists s', slot_diff_process_finished o s (process_success code NormalExit) NormalExit out err = Ok s' /\ shows s' (opened ms false (ml_rw s)) /\ actions_right s' (opened ms false (ml_rw s)) /\
    holds s' (fun k y => exists x x1, nth_error ms k = Some x /\ sel_only x x1 /\
                (if (match in_mode i with ShowingDiff => true | _ => false end) then sel_only x1 y else original o (in_local_source i) k x1 y)) (length ms) /\
    ml_info s' = Some (with_parsed i (po_generator p) (po_format p)) /\ ml_process s' = false /\
    exists pre, ml_out s' = ml_out s ++ pre ++ [ModelsChanged (ml_models s'); SetSelection (ml_sel s') (ml_diff s'); Status FinishedParsing].
Proof.
  intros o s code p ms i out err C P I HP E EM. unfold process_success. destruct (Z.eqb_spec code 0); [contradiction|]. cbn [negb].
  destruct (process_ok o s p ms i NormalExit out err P I (conj HP (conj E EM))) as (s' & E' & S' & A' & H' & I' & _ & P' & O'). exists s'. auto 10.
Qed.
Print Assumptions C50_differences_shown.
Theorem C50_output_not_parsed :
  forall o s code p i out err, code <> 0 -> ml_process s = true -> ml_info s = Some i -> parse (os_sort o) (split_lines out) = Ok p -> po_models p = None ->
  exists s', slot_diff_process_finished o s (process_success code NormalExit) NormalExit out err = Ok s' /\ model_count s' = 0 /\ ml_process s' = false /\
    ml_out s' = ml_out s ++ [Status Parsing; DiffString out; Error NotParsed; Status FinishedParsing].
Proof.
  intros o s code p i out err C P I E EM. unfold process_success. destruct (Z.eqb_spec code 0); [contradiction|]. cbn [negb]. unfold slot_diff_process_finished. rewrite P. cbn [negb].
  destruct (parse_output_fails o (emit (Status Parsing) s) out p i (conj E EM) I) as (s1 & E1 & M1 & _ & _ & _ & _ & _ & O1 & _). rewrite E1. cbn [bind negb].
  eexists. split; [reflexivity|]. unfold model_count. cbn. rewrite M1, O1. cbn. rewrite <- !app_assoc. auto.
Qed.
Print Assumptions C50_output_not_parsed.

(** * C57 *)
(** False of the code: while diff runs again the list is empty but the actions are enabled as before: next file takes
    the last element of an empty list. *)
Theorem C57_list_usable_while_diff_runs_refuted :
  exists s, refresh three = Ok s /\ model_count s = 0 /\ ac_next_file (ml_act s) = true /\ match slot_next_model s with UB _ => True | _ => False end.
Proof.
  assert (X : (do s <- refresh three; Ok (model_count s, ac_next_file (ml_act s), match slot_next_model s with UB _ => true | _ => false end)) = Ok (0, true, true)) by (vm_compute; reflexivity).
  destruct (refresh three) as [s| |]; try discriminate X. cbn [bind] in X. injection X as X1 X2 X3. exists s. split; [reflexivity|]. split; [exact X1|]. split; [exact X2|]. destruct (slot_next_model s); try discriminate X3. exact I.
Qed.
Print Assumptions C57_list_usable_while_diff_runs_refuted.
(** A diff opened while diff runs: when its output cannot be parsed, the models shown are deleted and stay selected. *)
Definition running : mlist := compare_mode ready.
Theorem C57_selection_dangles_refuted :
  exists s2 s3, refresh ready = Ok running /\ parse_and_open world running two_files = Ok (s2, true) /\ observed s2 three_view /\
    slot_diff_process_finished world s2 (process_success 2 NormalExit) NormalExit [] (lit "diff: trouble") = Ok s3 /\
    ac_next (ml_act s3) = true /\ match slot_next_difference s3 with UB _ => True | _ => False end.
Proof.
  destruct (open_two running default_info eq_refl eq_refl) as (s2 & E2 & SH & _). exists s2.
  assert (X : (do r <- parse_and_open world running two_files; do s3 <- slot_diff_process_finished world (fst r) (process_success 2 NormalExit) NormalExit [] (lit "diff: trouble"); Ok (ac_next (ml_act s3), match slot_next_difference s3 with UB _ => true | _ => false end)) = Ok (true, true)) by (vm_compute; reflexivity).
  rewrite E2 in X. cbn [bind fst] in X. destruct (slot_diff_process_finished world s2 _ NormalExit [] _) as [s3| |]; try discriminate X. cbn [bind] in X. injection X as X1 X2.
  exists s3. split; [reflexivity|]. split; [exact E2|]. split; [now apply observed_ok|]. split; [reflexivity|]. split; [exact X1|]. destruct (slot_next_difference s3); try discriminate X2. exact I.
Qed.
Print Assumptions C57_selection_dangles_refuted.

(** * C58 *)
(** After slotSaveDestination the save action is disabled whatever happened. *)
Theorem C58_save_action_after_save :
  forall e s v, shows s v -> exists s', slot_save e s = Ok s' /\ shows s' (with_flags v (update (v_flags v) (v_model v) (after_save e (now_of v (v_model v), saved_of v (v_model v))))) /\
    (ml_has_save s = true -> ac_save (ml_act s') = false) /\
    (exists pre, ml_out s' = ml_out s ++ pre ++ [UpdateActions] /\
       (In (Error SaveProblem) pre <-> unsaved_flags (now_of v (v_model v), saved_of v (v_model v)) = true /\ save_succeeds e = false)).
Proof.
  intros e s v SH. destruct (save_ok e s v SH) as (s' & E & S' & HS & O). exists s'. split; [exact E|]. split; [exact S'|]. split; [|exact O]. intros H. unfold slot_save in E.
  destruct (ml_sel s) as [m|] eqn:SM; [|destruct (shows_facts s v SH) as (l & m & x & d & f & y & F); destruct (fa_at _ _ _ _ _ _ _ _ F) as (_ & A & _); congruence].
  unfold save_model in E. destruct (model_of s m) as [z| |]; try discriminate. cbn [bind] in E. destruct (save_destination e z) as [o| |]; try discriminate. cbn [bind] in E. injection E as <-.
  destruct (so_error o); cbn; rewrite H; reflexivity.
Qed.
Print Assumptions C58_save_action_after_save.
(** False of the code: when the file cannot be written the changes are still unsaved, but the action is disabled. *)
Theorem C58_failed_save_can_be_repeated_refuted :
  exists s, run_lops three [LActApply; LSave (mk_save_env true true true false true true false)] = Ok s /\ has_unsaved_changes s = Ok true /\ ac_save (ml_act s) = false /\ ml_rw s = true /\ ml_has_save s = true.
Proof.
  assert (X : (do s <- run_lops three [LActApply; LSave (mk_save_env true true true false true true false)]; do u <- has_unsaved_changes s; Ok (u, ac_save (ml_act s), ml_rw s, ml_has_save s)) = Ok (true, false, true, true)) by (vm_compute; reflexivity).
  destruct (run_lops three _) as [s| |]; try discriminate X. cbn [bind] in X. exists s. destruct (has_unsaved_changes s) as [u| |]; try discriminate X. cbn [bind] in X. injection X as -> -> -> ->. auto.
Qed.
Print Assumptions C58_failed_save_can_be_repeated_refuted.
