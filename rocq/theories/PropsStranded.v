(** C45: exactly what can be done with the list after an opening that failed while something was shown. *)
From Coq Require Import String Permutation.
From Verif Require Import Base QtStr Diff Parser Save Blend SpecHistory SpecPatch SpecParse Info ModelList SpecList SpecWaiting SpecStranded PHistory PModelState PList PListOpen PropsList.
Local Open Scope Z_scope.

Lemma stranded_ext s s' v : ml_heap s' = ml_heap s -> ml_models s' = ml_models s -> ml_sel s' = ml_sel s -> ml_diff s' = ml_diff s ->
  ml_index s' = ml_index s -> ml_rw s' = ml_rw s -> stranded s v -> stranded s' v.
Proof. intros H1 H2 H3 H4 H5 H6 (E & l & S). split; [congruence|]. exists l. apply (shows_ext (put_back l s)); auto. Qed.
Lemma stranded_emit s v g : stranded s v -> stranded (emit g s) v. Proof. now apply stranded_ext. Qed.
Lemma stranded_act s v a : stranded s v -> stranded (with_act s a) v. Proof. now apply stranded_ext. Qed.

Record sfacts (s : mlist) (v : view) (m : nat) (x : dmodel) (d : nat) (f : list bool * list bool) (y : difference) : Prop := {
  sf_models : ml_models s = None;
  sf_msel : ml_sel s = Some m;
  sf_mindex : ml_index s = Z.of_nat (v_model v);
  sf_model : model_of s m = Ok x;
  sf_index : dm_index x = Z.of_nat (v_diff v);
  sf_nth : nth_error (dm_diffs x) (v_diff v) = Some d;
  sf_diff : ml_diff s = Some (m, d);
  sf_state : model_state x (fst f) (snd f);
  sf_now : now_of v (v_model v) = fst f;
  sf_deref : deref (dm_store x) d = Ok y;
  sf_rw : ml_rw s = v_rw v;
  sf_len : length (dm_diffs x) = size_of v (v_model v) }.
Lemma stranded_facts s v : stranded s v -> exists m x d f y, sfacts s v m x d f y.
Proof.
  intros (E & l & S). assert (R : ml_rw s = v_rw v) by (destruct S; assumption). destruct (shows_facts _ _ S) as (l' & m & x & d & f & y & F). exists m, x, d, f, y.
  assert (L := facts_len _ _ _ _ _ _ _ _ F). destruct F as [T (A1 & A2 & A3) M IX SE ND D FL ST NO SV DE AP].
  split; auto.
Qed.
Lemma sf_selected s v m x d f y : sfacts s v m x d f y -> selected s = Ok (m, x).
Proof. intros F. apply selected_ok; apply F. Qed.
Lemma sobserved s v : stranded s v -> observed_stranded s v.
Proof.
  intros W. destruct (stranded_facts _ _ W) as (m & x & d & f & y & F). destruct F as [E MS MI M IX ND D ST NO DE R L]. split.
  - unfold current_model, find_model, the_list. rewrite E. eexists. reflexivity.
  - unfold model_count. rewrite E. reflexivity.
  - unfold has_unsaved_changes. rewrite E. reflexivity.
  - unfold current_difference. rewrite MS, M. cbn [bind]. rewrite D. now rewrite (index_of_diff_at _ _ _ _ (ms_nodup _ _ _ ST) ND).
  - unfold difference_count. rewrite MS, M. cbn [bind]. now rewrite L.
  - unfold applied_count. rewrite MS, M. cbn [bind]. rewrite (ms_count _ _ _ ST). now rewrite NO.
Qed.
Lemma sactions s : ml_models s = None -> exists a, update_actions s = Ok (with_act s a) /\ all_disabled (with_act s a).
Proof.
  intros E. unfold update_actions. rewrite E. eexists. split; [reflexivity|]. unfold all_disabled. cbn [with_act ml_act ac_previous_file ac_next_file ac_previous ac_next ml_has_save].
  split; [reflexivity|]. split; [reflexivity|]. split; [reflexivity|]. split; [reflexivity|]. intros ->. repeat split.
Qed.

(** * Operations *)
(** Without a list nothing can be selected. *)
Definition undefined {A} (r : res A) : Prop := exists w, r = UB w.
Lemma no_list s : ml_models s = None -> undefined (the_list s). Proof. intros E. unfold the_list. rewrite E. eexists. reflexivity. Qed.
Lemma sfirst s : ml_models s = None -> undefined (first_model s).
Proof. intros E. unfold first_model, the_list. cbn. rewrite E. eexists. reflexivity. Qed.
Lemma slast s : ml_models s = None -> undefined (last_model s).
Proof. intros E. unfold last_model, the_list. cbn. rewrite E. eexists. reflexivity. Qed.
Lemma snext_model s : ml_models s = None -> undefined (next_model s).
Proof. intros E. unfold next_model, the_list. cbn. rewrite E. eexists. reflexivity. Qed.
Lemma sprev_model s : ml_models s = None -> undefined (prev_model s) \/ exists s', prev_model s = Ok s' /\ ml_sel s' = None /\ ml_models s' = None.
Proof.
  intros E. unfold prev_model, the_list. destruct (Z.ltb 0 (ml_index s)); cbn; rewrite ?E; [left; eexists; reflexivity|]. right. eexists. split; [reflexivity|]. split; [reflexivity|exact E].
Qed.
Lemma sbar s : ml_models s = None -> undefined (status_bar s).
Proof. intros E. unfold status_bar, find_model, the_list. rewrite E. eexists. reflexivity. Qed.
Lemma bind_ub {A B} (r : res A) (k : A -> res B) : undefined r -> undefined (bind r k).
Proof. intros (w & ->). now exists w. Qed.
Lemma sannounce s : ml_models s = None -> undefined (announce_difference s).
Proof. intros E. unfold announce_difference. apply bind_ub, sbar. exact E. Qed.
Lemma snext s v : stranded s v -> undefined (slot_next_difference s).
Proof.
  intros W. destruct (stranded_facts _ _ W) as (m & x & d & f & y & F). unfold slot_next_difference. rewrite (sf_selected _ _ _ _ _ _ _ F). cbn [bind]. unfold next_difference.
  rewrite (sf_index _ _ _ _ _ _ _ F), (sf_len _ _ _ _ _ _ _ F). replace (Z.of_nat (v_diff v) + 1) with (Z.of_nat (S (v_diff v))) by lia. rewrite of_nat_ltb. destruct (Nat.ltb_spec (S (v_diff v)) (size_of v (v_model v))) as [L|L].
  - rewrite <- (sf_len _ _ _ _ _ _ _ F) in L. destruct (nth_error_Some_lt _ _ L) as [d' N]. rewrite (diff_at_nth _ _ _ N). cbn [bind]. apply sannounce, F.
  - cbn [bind]. apply bind_ub, snext_model, F.
Qed.
Lemma sprevious s v : stranded s v -> undefined (slot_previous_difference s).
Proof.
  intros W. destruct (stranded_facts _ _ W) as (m & x & d & f & y & F). unfold slot_previous_difference. rewrite (sf_selected _ _ _ _ _ _ _ F). cbn [bind]. unfold prev_difference.
  rewrite (sf_index _ _ _ _ _ _ _ F), (sf_len _ _ _ _ _ _ _ F). assert (R : (v_diff v < size_of v (v_model v))%nat) by (rewrite <- (sf_len _ _ _ _ _ _ _ F); eapply nth_some_lt; apply F).
  destruct (v_diff v) as [|k] eqn:VD.
  - change (Z.ltb 0 (Z.of_nat 0)) with false. cbn [andb bind]. match goal with |- context [prev_model ?t] => destruct (sprev_model t (sf_models _ _ _ _ _ _ _ F)) as [U|(s' & E & SN & MN)] end; [now apply bind_ub|].
    rewrite E. cbn [bind]. rewrite SN. now apply bind_ub, sfirst.
  - destruct (Z.ltb_spec 0 (Z.of_nat (S k))); [|lia]. replace (Z.of_nat (S k) - 1) with (Z.of_nat k) by lia. rewrite of_nat_ltb. destruct (Nat.ltb_spec k (size_of v (v_model v))); [|lia]. cbn [andb].
    destruct (nth_error_Some_lt (dm_diffs x) k) as [d' N]; [rewrite (sf_len _ _ _ _ _ _ _ F); lia|]. rewrite (diff_at_nth _ _ _ N). cbn [bind]. apply sannounce, F.
Qed.
Lemma sapply s v b : stranded s v -> exists s', slot_apply_difference s b = Ok s' /\ stranded s' (apply_here b v) /\ ml_act s' = ml_act s /\ ml_info s' = ml_info s /\ ml_process s' = ml_process s.
Proof.
  intros (E & l & SH). destruct (apply_ok _ _ b SH) as (t & ET & ST & _). unfold slot_apply_difference in *. change (selected (put_back l s)) with (selected s) in ET.
  destruct (selected s) as [[m x]| |]; try discriminate. cbn [bind] in *. destruct (apply_difference x b) as [z| |]; try discriminate. cbn [bind] in *. injection ET as <-.
  eexists. split; [reflexivity|]. split; [|repeat split]. split; [exact E|]. exists l. exact ST.
Qed.
Lemma sapply_all s v b : stranded s v -> exists s', slot_apply_all s b = Ok s' /\ stranded s' (apply_everywhere b v) /\ ml_act s' = ml_act s /\ ml_info s' = ml_info s /\ ml_process s' = ml_process s.
Proof.
  intros (E & l & SH). destruct (apply_all_slot_ok _ _ b SH) as (t & ET & ST & _). unfold slot_apply_all in *. change (selected (put_back l s)) with (selected s) in ET.
  destruct (selected s) as [[m x]| |]; try discriminate. cbn [bind] in *. destruct (apply_all x b) as [z| |]; try discriminate. cbn [bind] in *. injection ET as <-.
  eexists. split; [reflexivity|]. split; [|repeat split]. split; [exact E|]. exists l. exact ST.
Qed.
Lemma ssave s v e : stranded s v -> exists s', slot_save e s = Ok s' /\
  stranded s' (with_flags v (update (v_flags v) (v_model v) (after_save e (now_of v (v_model v), saved_of v (v_model v))))) /\ ml_info s' = ml_info s /\ ml_process s' = ml_process s /\ acts_after v (LSave e) s s'.
Proof.
  intros (E & l & SH). destruct (save_ok e _ _ SH) as (t & ET & ST & _). unfold slot_save, save_model in *. change (ml_sel (put_back l s)) with (ml_sel s) in ET.
  destruct (ml_sel s) as [m|] eqn:MS; [|injection ET as <-; eexists; split; [reflexivity|]; split; [split; [exact E|exists l; exact ST]|]; exfalso; apply shows_split in SH as (_ & l0 & m0 & _ & A0 & _); destruct A0 as (_ & A0 & _); cbn in A0; congruence].
  change (model_of (put_back l s) m) with (model_of s m) in ET. destruct (model_of s m) as [x| |]; try discriminate. cbn [bind] in *. destruct (save_destination e x) as [o| |]; try discriminate. cbn [bind] in *. injection ET as <-.
  destruct (so_error o); cbn [emit put_model with_heap ml_has_save] in *; change (ml_has_save (put_back l s)) with (ml_has_save s) in ST; destruct (ml_has_save s) eqn:HS; (eexists; split; [reflexivity|]; split; [split; [exact E|]; exists l; exact ST|]; split; [reflexivity|]; split; [reflexivity|]; cbn [acts_after]; rewrite HS; repeat split; discriminate).
Qed.

(** * The theorems *)
(** A text without models is opened while something is shown: the selection stays, the actions stay, the list is gone.
    Another such text later changes nothing about that. *)
Theorem C45_stranded_begins :
  forall o s v diff p i, shows s v \/ stranded s v -> ml_info s = Some i -> parse (os_sort o) (split_lines diff) = Ok p -> po_models p = None ->
  exists s', parse_and_open o s diff = Ok (s', false) /\ stranded s' v /\ observed_stranded s' v /\ ml_act s' = ml_act s.
Proof.
  intros o s v diff p i SH I E N. unfold parse_and_open. set (s0 := emit (Status Parsing) (clear s)).
  assert (W : ml_info s0 = Some i /\ ml_act s0 = ml_act s /\ (ml_models s0 = Some [] \/ ml_models s0 = None) /\ exists l, shows (put_back l s0) v).
  { destruct SH as [SH|(NM & l & SH)].
    - apply shows_split in SH as (R & l & m & (T1 & T2 & T3) & A & D). unfold s0, clear. rewrite T1. split; [exact I|]. split; [reflexivity|]. split; [left; reflexivity|].
      exists l. apply shows_split. split; [exact R|]. exists l, m. split; [split; [reflexivity|split; [exact T2|exact T3]]|]. split; [exact A|exact D].
    - unfold s0, clear. rewrite NM. split; [exact I|]. split; [reflexivity|]. split; [right; exact NM|]. exists l. apply (shows_ext (put_back l s)); auto. }
  destruct W as (I0 & A0 & M0 & l & S0). clearbody s0.
  unfold parse_diff_output. rewrite E. cbn [bind emit ml_models ml_heap ml_info]. rewrite N. unfold the_info. cbn [with_models emit ml_info]. rewrite I0. cbn [bind with_info with_models ml_models].
  eexists. split; [reflexivity|].
  match goal with |- stranded ?t v /\ _ => assert (ST : stranded t v) end.
  { split; [reflexivity|]. exists l. apply (shows_ext (put_back l s0)); try reflexivity; [|exact S0]. destruct M0 as [M0|M0]; rewrite M0; reflexivity. }
  split; [exact ST|]. split; [apply sobserved, ST|exact A0].
Qed.
(** Then everything that selects something is undefined, enabled or not; all else does what it always does. *)
Theorem C45_each_operation_after_failed_open :
  forall s v o v1, stranded s v -> vstep v o = Some v1 ->
  if needs_list o then exists w, run_lop s o = UB w
  else exists s' v', sstep v o = Some v' /\ run_lop s o = Ok s' /\ stranded s' v' /\ observed_stranded s' v' /\
    acts_after v o s s' /\ ml_process s' = ml_process s /\ ml_info s' = ml_info s.
Proof.
  intros s v o v1 W V. destruct (stranded_facts _ _ W) as (m & x & d & f & y & F). unfold sstep.
  assert (NM : forall s' v', stranded s' v' -> ml_info s' = ml_info s -> ml_process s' = ml_process s -> forall o, acts_after v o s s' ->
    stranded s' v' /\ observed_stranded s' v' /\ acts_after v o s s' /\ ml_process s' = ml_process s /\ ml_info s' = ml_info s).
  { intros s' v' A HI HP o0 R. split; [exact A|]. split; [apply sobserved, A|]. split; [exact R|]. split; [exact HP|exact HI]. }
  destruct o as [| | | |i k|k|b|b| | |b|e|envs|b]; cbn [needs_list]; cbn [vstep] in V |- *; cbn [run_lop].
  - exact (snext s v W).
  - exact (sprevious s v W).
  - unfold slot_next_model. apply bind_ub, snext_model, F.
  - unfold slot_previous_model. destruct (sprev_model s (sf_models _ _ _ _ _ _ _ F)) as [U|(s' & E & SN & MN)]; [now apply bind_ub|]. rewrite E. cbn [bind]. rewrite SN. apply bind_ub, sfirst, MN.
  - apply bind_ub, no_list, F.
  - destruct (Nat.ltb_spec k (size_of v (v_model v))) as [L|L]; [|discriminate]. rewrite (sf_selected _ _ _ _ _ _ _ F). cbn [bind snd fst].
    rewrite <- (sf_len _ _ _ _ _ _ _ F) in L. destruct (nth_error_Some_lt _ _ L) as [d' N]. rewrite (diff_at_nth _ _ _ N). cbn [bind].
    unfold slot_difference_changed. cbn [with_diff ml_sel]. rewrite (sf_msel _ _ _ _ _ _ _ F). unfold select_in. change (model_of (with_diff s (Some (m, d'))) m) with (model_of s m).
    rewrite (sf_model _ _ _ _ _ _ _ F). cbn [bind]. rewrite Nat.eqb_refl.
    assert (OK : snd (set_selected_difference x (Some d')) = true).
    { unfold set_selected_difference. destruct (sel_eqb (Some d') (dm_sel x)); [reflexivity|]. now rewrite (find_id_nodup _ _ _ (ms_nodup _ _ _ (sf_state _ _ _ _ _ _ _ F)) N). }
    destruct (set_selected_difference x (Some d')) as [z ok]. cbn [snd] in OK. subst ok. cbn [bind]. apply bind_ub, sbar. exact (sf_models _ _ _ _ _ _ _ F).
  - destruct (sapply s v b W) as (s' & E & A & HA & HI & HP). exists s', (apply_here b v). split; [reflexivity|]. split; [exact E|]. now apply NM.
  - destruct (sapply_all s v b W) as (s' & E & A & HA & HI & HP). exists s', (apply_everywhere b v). split; [reflexivity|]. split; [exact E|]. now apply NM.
  - unfold slot_action_apply, difference_of. rewrite (sf_diff _ _ _ _ _ _ _ F), (sf_model _ _ _ _ _ _ _ F). cbn [bind]. rewrite (sf_deref _ _ _ _ _ _ _ F). cbn [bind].
    destruct (d_applied y).
    + cbn [bind]. apply bind_ub, (snext s v W).
    + destruct (sapply s v true W) as (s0 & E0 & A0 & _). rewrite E0. cbn [bind]. apply bind_ub, (snext s0 _ A0).
  - unfold slot_action_unapply, difference_of. rewrite (sf_diff _ _ _ _ _ _ _ F), (sf_model _ _ _ _ _ _ _ F). cbn [bind]. rewrite (sf_deref _ _ _ _ _ _ _ F). cbn [bind].
    destruct (d_applied y).
    + destruct (sapply s v false W) as (s0 & E0 & A0 & _). rewrite E0. cbn [bind]. apply bind_ub, (sprevious s0 _ A0).
    + cbn [bind]. apply bind_ub, (sprevious s v W).
  - destruct (sapply_all s v b W) as (s1 & E1 & A1 & _ & HI & HP). unfold slot_action_apply_all. rewrite E1. cbn [bind]. destruct (sactions s1 (proj1 A1)) as (a & E2 & A2). rewrite E2.
    eexists _, (apply_everywhere b v). split; [reflexivity|]. split; [reflexivity|]. assert (W1 := stranded_act _ _ a A1). split; [exact W1|]. split; [apply sobserved, W1|]. split; [auto|]. split; [exact HP|exact HI].
  - destruct (ssave s v e W) as (s' & E & A & HI & HP & HA). eexists s', _. split; [reflexivity|]. split; [exact E|]. now apply NM.
  - unfold save_all_models. rewrite (os_models _ _ (sobserved _ _ W)). cbn [Z.eqb bind fst]. exists s, v. split; [reflexivity|]. split; [reflexivity|]. now apply NM.
  - unfold set_read_write. rewrite (sf_rw _ _ _ _ _ _ _ F). destruct (Bool.eqb_spec (v_rw v) b) as [<-|NE].
    + exists s, v. split; [now destruct v|]. split; [reflexivity|]. apply NM; auto. cbn [acts_after]. now rewrite Bool.eqb_reflx.
    + assert (W1 : stranded (with_rw s b) (mk_view (v_flags v) (v_model v) (v_diff v) b)).
      { destruct W as (E & l & SH). split; [exact E|]. exists l. apply shows_split in SH as (_ & l' & m' & T & A & D). apply shows_split. split; [reflexivity|]. exists l', m'. split; [eapply tidy_ext; [..|exact T]; reflexivity|]. split; [exact A|]. eapply at_diff_ext; [..|exact D]; reflexivity. }
      destruct (sactions (with_rw s b) (proj1 W1)) as (a & E2 & A2). rewrite E2. eexists _, _. split; [reflexivity|]. split; [reflexivity|]. apply NM; [apply stranded_act, W1|reflexivity..|]. cbn [acts_after]. destruct (Bool.eqb_spec (v_rw v) b); [contradiction|exact A2].
Qed.
(** Any history of operations that select nothing. *)
Theorem C45_histories_after_failed_open :
  forall ops s v v', stranded s v -> srun v ops = Some v' ->
  exists s', run_lops s ops = Ok s' /\ stranded s' v' /\ observed_stranded s' v' /\ ml_process s' = ml_process s /\ ml_info s' = ml_info s.
Proof.
  induction ops as [|o ops IH]; intros s v v' W V; cbn [srun run_lops] in *.
  - injection V as <-. exists s. split; [reflexivity|]. split; [exact W|]. split; [apply sobserved, W|]. split; reflexivity.
  - destruct (sstep v o) as [v2|] eqn:Q; [|discriminate]. assert (V1 : exists v1, vstep v o = Some v1) by (unfold sstep in Q; destruct (needs_list o); [discriminate|]; destruct o; try (exists v2; exact Q); eexists; reflexivity).
    destruct V1 as (v1 & V1). pose proof (C45_each_operation_after_failed_open s v o v1 W V1) as H. assert (L : needs_list o = false) by (unfold sstep in Q; destruct (needs_list o); [discriminate|reflexivity]). rewrite L in H.
    destruct H as (s1 & v2' & Q2 & E1 & W1 & _ & _ & HP & HI). assert (v2' = v2) as -> by congruence. rewrite E1. cbn [bind]. destruct (IH s1 v2 v' W1 V) as (s' & E' & W' & O' & P' & I'). exists s'. split; [exact E'|]. split; [exact W'|]. split; [exact O'|]. split; congruence.
Qed.
(** Three differences in two files are shown and a text that is no diff is opened. "Next difference" is enabled and
    undefined; applying, unapplying and saving work; applying all disables all. *)
Example C45_stranded_example :
  exists s, parse_and_open world three (text_of ["no diff"%string]) = Ok (s, false) /\ stranded s three_view /\ ac_next (ml_act s) = true /\ (exists w, run_lop s LNext = UB w) /\
    srun three_view [LApply true; LApplyAll false; LActApplyAll true; LSave (mk_save_env true true true true true true true); LReadWrite false] =
      Some (mk_view [([true; true], [true; true]); ([false], [false])] 0 0 false) /\
    srun three_view [LApply true; LSelectDifference 0] = None.
Proof.
  destruct C40_example as (_ & SH & AR & _).
  assert (I : exists i, ml_info three = Some i) by (eexists; vm_compute; reflexivity). destruct I as (i & I).
  assert (P : exists p, parse (os_sort world) (split_lines (text_of ["no diff"%string])) = Ok p /\ po_models p = None) by (eexists; split; vm_compute; reflexivity). destruct P as (p & P & N).
  destruct (C45_stranded_begins world three three_view _ p i (or_introl SH) I P N) as (s & E & W & _ & AC). exists s. split; [exact E|]. split; [exact W|].
  split; [rewrite AC, (ar_next _ _ AR); reflexivity|]. split; [exact (C45_each_operation_after_failed_open _ _ LNext _ W eq_refl)|]. split; reflexivity.
Qed.
Print Assumptions C45_stranded_begins.
Print Assumptions C45_each_operation_after_failed_open.
Print Assumptions C45_histories_after_failed_open.
Print Assumptions C45_stranded_example.
