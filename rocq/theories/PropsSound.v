(** C94, C92: the difference pointers of every living model are good at any time. *)
From Coq Require Import String Permutation.
From Verif Require Import Base QtStr Diff Save Parser SpecUnified SpecParse SpecPatch Blend SpecBlend SpecCalls LinesChanged Paths Info ModelList Life World Rounds LifeWorld Nested SpecList PHistory PSave PModelState PList PAnyInput PropsParse PropsRecreate Memory PropsUnified PropsEdit PropsCalls PropsMemory PKin PGood PFar PWorld PropsList PropsWorld PropsLife PropsLifeWorld PropsWorkflow PropsNested PropsNestedSafe.
Local Open Scope Z_scope.

(** In every living model no pointer dangles. *)
Definition all_good (s : mlist) : Prop := forall m x, model_of s m = Ok x -> pointers_good x.
Lemma good_sound x : pointers_good x -> sound x.
Proof. intros (A & B & _). split; apply Forall_forall; [exact A|]. intros h I. apply Forall_forall. intros i. exact (B h i I). Qed.
Lemma sound_good x : sound x -> (forall i, dm_sel x = Some i -> (i < length (dm_store x))%nat) -> NoDup (dm_diffs x) -> 0 <= dm_index x -> pointers_good x.
Proof. intros [A B] S N I. rewrite Forall_forall in A, B. split; [exact A|]. split; [|auto]. intros h i Hh. specialize (B h Hh). rewrite Forall_forall in B. apply B. Qed.
Definition in_range (n : nat) (h : hunk) : Prop := Forall (fun i => (i < n)%nat) (h_diffs h).
Lemma in_range_more n n' h : (n <= n')%nat -> in_range n h -> in_range n' h.
Proof. intros L F. eapply Forall_impl; [|exact F]. intros i. cbn. lia. Qed.
Lemma blend_hunks_sound hs : forall st src dst lines hs' st' src' dst' lines', blend_hunks st src dst lines hs = Ok (hs', st', src', dst', lines') -> Forall (in_range (length st)) hs ->
  (length st <= length st')%nat /\ Forall (in_range (length st')) hs'.
Proof.
  induction hs as [|h hs IH]; intros st src dst lines hs' st' src' dst' lines' H F; cbn [blend_hunks] in H; [injection H as <- <- _ _ _; auto|]. inversion F as [|? ? F1 F2]; subst.
  destruct (Z.ltb src (h_src h)).
  - destruct (blend_while (h_src h) src dst lines (new_diff src dst Unchanged)) as [[[src1 dst1] lines1] d]. step H. step H. destruct a0 as [[[[out st1] src2] dst2] lines2]. injection H as <- <- _ _ _.
    assert (L : length (st ++ [d]) = S (length st)) by (rewrite app_length; cbn; lia). apply IH in E0 as [A B]; [|eapply Forall_impl; [|exact F2]; intros k; apply in_range_more; lia]. rewrite L in A. split; [lia|].
    cbn [app]. constructor; [constructor; [lia|constructor]|]. constructor; [eapply in_range_more; [|exact F1]; lia|exact B].
  - step H. step H. destruct a0 as [[[[out st1] src2] dst2] lines2]. injection H as <- <- _ _ _. apply IH in E0 as [A B]; [|exact F2]. split; [exact A|]. cbn [app]. constructor; [eapply in_range_more; [exact A|exact F1]|exact B].
Qed.
Lemma blend_sound x text y : blend_file x text = Ok y -> sound x -> sound y.
Proof.
  unfold blend_file. intros H [A B]. step H. destruct a as [[[[hs st] src] dst] lines]. apply blend_hunks_sound in E as [L F]; [|exact B]. change (dm_store (with_blended x true)) with (dm_store x) in L.
  assert (A' : Forall (fun i => (i < length st)%nat) (dm_diffs x)) by (eapply Forall_impl; [|exact A]; intros i; cbn; lia).
  destruct lines as [|l lines]; [injection H as <-; split; [exact A'|exact F]|]. cbn in H. injection H as <-. unfold sound. cbn. rewrite app_length. cbn [length]. split.
  - eapply Forall_impl; [|exact A']. intros i. cbn. lia.
  - apply Forall_app. split; [|constructor; [|constructor]; constructor; [lia|constructor]]. eapply Forall_impl; [|exact F]. intros h. apply in_range_more. lia.
Qed.
Lemma blend_same x text y : blend_file x text = Ok y -> dm_sel y = dm_sel x /\ dm_index y = dm_index x /\ dm_diffs y = dm_diffs x /\ (length (dm_store x) <= length (dm_store y))%nat \/ ~ sound x.
Proof.
  intros H. destruct (Forall_dec (fun i => (i < length (dm_store x))%nat) (fun i => lt_dec i _) (dm_diffs x)) as [A|A]; [|right; now intros [B _]].
  destruct (Forall_dec (in_range (length (dm_store x))) (fun h => Forall_dec _ (fun i => lt_dec i _) (h_diffs h)) (dm_hunks x)) as [B|B]; [|right; now intros [_ C]].
  left. unfold blend_file in H. step H. destruct a as [[[[hs st] src] dst] lines]. apply blend_hunks_sound in E as [L _]; [|exact B]. change (dm_store (with_blended x true)) with (dm_store x) in L.
  destruct lines; injection H as <-; cbn; auto. rewrite app_length. cbn. repeat split; auto. lia.
Qed.
Lemma blend_good x text y : blend_file x text = Ok y -> pointers_good x -> pointers_good y.
Proof.
  intros H G. pose proof (good_sound _ G) as S. pose proof (blend_sound _ _ _ H S) as S'. destruct (blend_same _ _ _ H) as [(A & B & C & D)|N]; [|contradiction]. destruct G as (_ & _ & G1 & G2 & G3).
  apply sound_good; [exact S'| | |]; [rewrite A; intros i I; specialize (G1 i I); lia|now rewrite C|now rewrite B].
Qed.
Definition keeps (s s' : mlist) : Prop := all_good s -> all_good s'.
Lemma keeps_to a b c : keeps a b -> keeps b c -> keeps a c. Proof. unfold keeps. auto. Qed.
Lemma keeps_heap s s' : ml_heap s' = ml_heap s -> keeps s s'.
Proof. intros E A m x X. apply (A m x). unfold model_of in *. now rewrite <- E. Qed.
Lemma keeps_kin s s' : mild s s' -> far s s' -> keeps s s'.
Proof.
  intros P F A m y Y. destruct F as (_ & _ & _ & _ & AL & _). assert (V : alive s m) by (apply AL; exists y; exact Y). destruct V as [x X]. destruct P as (_ & _ & P). destruct (P m x X) as (y' & Y' & K). rewrite Y in Y'. injection Y' as <-.
  apply K. exact (A m x X).
Qed.
Lemma keeps_put s m x y : model_of s m = Ok x -> (pointers_good x -> pointers_good y) -> keeps s (put_model s m y).
Proof.
  intros M K A n z Z. destruct (Nat.eq_dec m n) as [<-|D].
  - rewrite (model_of_put _ _ _ _ M) in Z. injection Z as <-. apply K. exact (A m x M).
  - apply (A n). unfold model_of, put_model in *. cbn [with_heap ml_heap] in Z. rewrite nth_update_other in Z by congruence. exact Z.
Qed.
Lemma heap_good o s diff p ms s0 : (forall l, Permutation (os_sort o l) l) -> parse (os_sort o) (split_lines diff) = Ok p -> all_good s ->
  po_models p = Some ms -> ml_heap s0 = (match ml_models s with Some l => delete_all l (ml_heap s) | None => ml_heap s end) ++ map Some ms -> all_good s0.
Proof.
  intros HP E A PM HS. pose proof (C21_hunks_contiguous _ _ _ HP E) as PS. set (h := match ml_models s with Some l => delete_all l (ml_heap s) | None => ml_heap s end) in *.
  assert (AH : forall m x, nth_error h m = Some (Some x) -> pointers_good x).
  { intros m x N. apply (A m x). unfold model_of. unfold h in N. destruct (ml_models s); [apply deleted in N as [N _]|]; now rewrite N. }
  intros m x X. unfold model_of in X. rewrite HS in X. destruct (nth_error (h ++ map Some ms) m) as [[y|]|] eqn:N; try discriminate. injection X as ->. destruct (Nat.lt_ge_cases m (length h)) as [L|L].
  - rewrite nth_error_app1 in N by exact L. eapply AH. exact N.
  - rewrite nth_error_app2, nth_error_map in N by exact L. destruct (nth_error ms (m - length h)) as [z|] eqn:Z; [|discriminate]. injection N as ->. apply nth_error_In in Z. rewrite PM in PS.
    cbn [the_models] in PS. rewrite Forall_forall in PS. destruct (PS x Z) as (_ & hs & [C (S1 & S2 & S3 & S4)] & _). eapply links_good; [exact C|lia|]. rewrite S3. discriminate.
Qed.
Lemma parse_sound o s diff s' b : (forall l, Permutation (os_sort o l) l) -> parse_diff_output o s diff = Ok (s', b) -> keeps s s'.
Proof.
  intros HP H A. unfold parse_diff_output in H. step H. rename a into p. step H. cbn [emit ml_models ml_heap] in *.
  destruct (po_models p) as [ms|] eqn:PM; cbn [with_models with_info ml_models] in H.
  - step H. step H. step H. injection H as <- _. eapply keeps_heap; [reflexivity|]. apply (keeps_kin _ _ (mild_first _ _ E2) (far_first _ _ E2)). apply (keeps_kin _ _ (mild_first_model _ _ E1) (far_first_model _ _ E1)).
    eapply heap_good; [exact HP|exact E|exact A|exact PM|]. destruct (po_malformed p); reflexivity.
  - injection H as <- _. intros m x X. apply (A m x). unfold model_of in *. cbn in X. destruct (ml_models s) as [l|]; [|exact X]. destruct (nth_error (delete_all l (ml_heap s)) m) as [[y|]|] eqn:N; try discriminate. injection X as ->. apply deleted in N as [N _]. now rewrite N.
Qed.
Lemma blend_model_sound s m text s' : blend_model s m text = Ok s' -> keeps s s'.
Proof.
  unfold blend_model. intros H. step H. step H. step H. eapply keeps_to; [eapply keeps_put; [exact E|intros A; eapply blend_good; [exact E0|exact A]]|].
  eapply keeps_to; [eapply keeps_kin; [eapply mild_first_model; exact E1|eapply far_first_model; exact E1]|eapply keeps_kin; [eapply mild_first; exact H|eapply far_first; exact H]].
Qed.
Lemma blend_dir_sound o url l : forall s b s' b', blend_dir o url s l b = Ok (s', b') -> keeps s s'.
Proof. induction l as [|m l IH]; intros s b s' b' H; cbn [blend_dir] in H; [injection H as <- _; intros A; exact A|]. step H. step H. eapply keeps_to; [eapply blend_model_sound; exact E0|eapply IH; exact H]. Qed.
Lemma blend_original_sound o s url s' b : blend_original o s url = Ok (s', b) -> keeps s s'.
Proof.
  unfold blend_original. intros H. destruct (os_is_dir o url); [step H; eapply blend_dir_sound; exact H|]. destruct (os_is_file o url); [|injection H as <- _; intros A; exact A].
  step H. step H. step H. injection H as <- _. eapply blend_model_sound. exact E1.
Qed.
Lemma show_sound s s' : show s = Ok s' -> keeps s s'.
Proof. unfold show. intros H. step H. injection H as <-. now apply keeps_heap. Qed.
Lemma depth_good n b x y : set_depth_and_applied n b x = Ok y -> pointers_good x -> pointers_good y.
Proof.
  unfold set_depth_and_applied. intros E G. eapply tame_apply_all; [exact E|]. clear E.
  assert (N : forall z p, pointers_good z -> pointers_good (set_source_file p z)) by (intros z p Q; unfold set_source_file, split_source; destruct (last_index_of _ _); exact Q).
  assert (M : forall z p, pointers_good z -> pointers_good (set_destination_file p z)) by (intros z p Q; unfold set_destination_file, split_destination; destruct (last_index_of _ _); exact Q).
  apply M, N, G.
Qed.
Lemma depth_sound i l : forall s s', depth_and_applied i s l = Ok s' -> keeps s s'.
Proof.
  induction l as [|m l IH]; intros s s' H; cbn [depth_and_applied] in H; [injection H as <-; intros A; exact A|]. step H. step H. eapply keeps_to; [|eapply IH; exact H]. eapply keeps_put; [exact E|]. intros A.
  eapply depth_good; eassumption.
Qed.
Lemma clear_sound s : keeps s (clear s). Proof. apply keeps_heap. unfold clear. destruct (ml_models s); reflexivity. Qed.
Lemma compare_mode_sound s : keeps s (compare_mode s). Proof. apply keeps_heap. unfold compare_mode, clear. destruct (ml_models s); reflexivity. Qed.
Lemma update_sound s s' : update_actions s = Ok s' -> keeps s s'.
Proof. intros H. eapply keeps_kin; [now apply mild_update|now apply far_update]. Qed.
Lemma open_sound o s diff s' b : (forall l, Permutation (os_sort o l) l) -> parse_and_open o s diff = Ok (s', b) -> keeps s s'.
Proof.
  intros HP H. unfold parse_and_open in H. step H. destruct a as [s1 ok]. assert (K : keeps s s1) by (eapply keeps_to; [apply clear_sound|]; eapply keeps_to; [|eapply parse_sound; [exact HP|exact E]]; now apply keeps_heap).
  destruct ok; [|injection H as <- _; eapply keeps_to; [exact K|now apply keeps_heap]]. step H. step H. injection H as <- _. eapply keeps_to; [exact K|]. eapply keeps_to; [eapply update_sound; exact E0|]. eapply keeps_to; [eapply show_sound; exact E1|now apply keeps_heap].
Qed.
Lemma open_blend_sound o s s' b : (forall l, Permutation (os_sort o l) l) -> open_and_blend o s = Ok (s', b) -> keeps s s'.
Proof.
  intros HP H. unfold open_and_blend in H. step H. step H. destruct a0 as [s1 ok]. assert (K : keeps s s1) by (eapply keeps_to; [apply clear_sound|eapply parse_sound; [exact HP|exact E0]]).
  destruct ok; cbn [negb] in H; [|injection H as <- _; eapply keeps_to; [exact K|now apply keeps_heap]]. step H. step H. step H. step H. destruct a3 as [s2 ok].
  assert (K2 : keeps s s2) by (eapply keeps_to; [exact K|]; eapply keeps_to; [eapply depth_sound; exact E3|eapply blend_original_sound; exact E4]).
  destruct ok; cbn [negb] in H; [|injection H as <- _; eapply keeps_to; [exact K2|now apply keeps_heap]]. step H. step H. injection H as <- _. eapply keeps_to; [exact K2|]. eapply keeps_to; [eapply update_sound; exact E5|eapply show_sound; exact E6].
Qed.
(** A happening that is as it should be: std::sort sorts, and the holder of a model changes it by calls that respect what C69 asks for. *)
Definition fair (o : outside) (s : mlist) (h : happening) : Prop := (forall l, Permutation (os_sort o l) l) /\ match h with HModel m y => forall x, model_of s m = Ok x -> exists qhash cs, all_respected qhash x cs /\ do_calls qhash x cs = Ok y | _ => True end.
Lemma compare_sound o s s' b : (forall l, Permutation (os_sort o l) l) -> compare o s = Ok (s', b) -> keeps s s'.
Proof.
  intros HP H. unfold compare in H. step H.
  assert (C : forall i, keeps s (compare_mode (with_info s (Some i)))) by (intros i; eapply keeps_to; [|apply compare_mode_sound]; now apply keeps_heap).
  assert (D : forall i s' b, open_and_blend o (with_info s (Some i)) = Ok (s', b) -> keeps s s') by (intros i s0 b0 Q; eapply keeps_to; [|eapply open_blend_sound; [exact HP|exact Q]]; now apply keeps_heap).
  assert (C' : forall i s' b, Ok (compare_mode (with_info s (Some i)), true) = Ok (s', b) -> keeps s s') by (intros i s0 b0 Q; injection Q as <- _; apply C).
  destruct (_ && _)%bool; [eapply C'; exact H|]. destruct (_ && _)%bool; [|destruct (_ && _)%bool; eapply D; exact H].
  destruct (_ && _)%bool; [eapply D; exact H|]. destruct (_ && _)%bool; [eapply D; exact H|eapply C'; exact H].
Qed.
Lemma finished_sound o s success st out err s' : (forall l, Permutation (os_sort o l) l) -> slot_diff_process_finished o s success st out err = Ok s' -> keeps s s'.
Proof.
  intros HP H. unfold slot_diff_process_finished in H. destruct (negb (ml_process s)); [discriminate|]. step H. injection H as <-. apply (keeps_to _ a); [|now apply keeps_heap]. destruct success.
  - step E. destruct a0 as [s1 ok]. assert (K : keeps s s1) by (eapply keeps_to; [|eapply parse_sound; [exact HP|exact E0]]; now apply keeps_heap). step E. injection E as <-. apply (keeps_to _ a0); [|now apply keeps_heap].
    destruct ok; cbn [negb] in E1; [|injection E1 as <-; eapply keeps_to; [exact K|now apply keeps_heap]]. step E1. step E1. step E1.
    eapply keeps_to; [|eapply show_sound; exact E1]. eapply keeps_to; [|eapply update_sound; exact E3]. destruct (mode_eqb _ _); [injection E2 as <-; exact K|]. step E2. destruct a3. injection E2 as <-.
    eapply keeps_to; [exact K|eapply blend_original_sound; exact E4].
  - destruct st; injection E as <-; now apply keeps_heap.
Qed.
Ltac kept P F := eapply keeps_kin; [eapply P; eassumption|eapply F; eassumption].
Lemma occur_sound o s h s' : fair o s h -> occur o s h = Ok s' -> keeps s s'.
Proof.
  intros [HP FH] H. destruct h; cbn [occur] in H.
  - kept mild_slot_next far_slot_next.
  - kept mild_slot_previous far_slot_previous.
  - kept mild_slot_next_model far_slot_next_model.
  - kept mild_slot_previous_model far_slot_previous_model.
  - kept mild_pair far_pair.
  - kept mild_single far_single.
  - kept mild_apply far_apply.
  - kept mild_apply_all far_apply_all.
  - unfold slot_action_apply in H. step H. step H. step H. eapply keeps_to; [|eapply keeps_to; [kept mild_slot_next far_slot_next|kept mild_update far_update]].
    destruct (d_applied a); [injection E0 as <-; now apply keeps_heap|kept mild_apply far_apply].
  - unfold slot_action_unapply in H. step H. step H. step H. eapply keeps_to; [|eapply keeps_to; [kept mild_slot_previous far_slot_previous|kept mild_update far_update]].
    destruct (d_applied a); [kept mild_apply far_apply|injection E0 as <-; now apply keeps_heap].
  - unfold slot_action_apply_all in H. step H. eapply keeps_to; [kept mild_apply_all far_apply_all|kept mild_update far_update].
  - kept mild_slot_save far_slot_save.
  - step H. destruct a as [s1 b]. injection H as <-. kept mild_save far_save.
  - step H. destruct a as [s1 b]. injection H as <-. unfold save_all_models in E. destruct (Z.eqb _ _); [injection E as <- _; now apply keeps_heap|]. step E. kept mild_save_models far_save_models.
  - unfold set_read_write in H. destruct (Bool.eqb _ _); [injection H as <-; now apply keeps_heap|]. eapply keeps_to; [|kept mild_update far_update]. now apply keeps_heap.
  - injection H as <-. now apply keeps_heap.
  - injection H as <-. apply clear_sound.
  - eapply show_sound. exact H.
  - step H. destruct a as [s1 b]. injection H as <-. eapply compare_sound; eassumption.
  - unfold refresh in H. step H. injection H as <-. apply compare_mode_sound.
  - unfold swap in H. step H. destruct (in_mode a); injection H as <-; first [apply compare_mode_sound|now apply keeps_heap].
  - step H. destruct a as [s1 b]. injection H as <-. unfold open_diff in E. destruct file; [injection E as <- _; now apply keeps_heap|]. eapply open_sound; eassumption.
  - step H. destruct a as [s1 b]. injection H as <-. eapply open_sound; eassumption.
  - step H. destruct a as [s1 b]. injection H as <-. eapply open_blend_sound; eassumption.
  - step H. destruct a as [s1 b]. injection H as <-. eapply parse_sound; eassumption.
  - step H. destruct a as [s1 b]. injection H as <-. eapply blend_original_sound; eassumption.
  - eapply finished_sound; eassumption.
  - step H. injection H as <-. eapply keeps_put; [exact E|]. intros G. destruct (FH _ eq_refl) as (qhash & cs & R & C). destruct (C69_calls_defined qhash cs a G R) as (y' & Y & G'). rewrite C in Y. injection Y as <-. exact G'.
Qed.

(** * C94 *)
(** A history all of whose happenings are fair. *)
Fixpoint fair_life (s : mlist) (hs : list (outside * happening)) : Prop :=
  match hs with
  | [] => True
  | (o, h) :: hs' => fair o s h /\ forall s', occur o s h = Ok s' -> fair_life s' hs'
  end.
Lemma life_good hs : forall s s', life s hs = Ok s' -> fair_life s hs -> all_good s -> all_good s'.
Proof.
  induction hs as [|[o h] hs IH]; intros s s' H F G; cbn [life fair_life] in *; [now injection H as <-|]. step H. destruct F as [F1 F2]. eapply IH; [exact H|now apply F2|]. eapply occur_sound; [exact F1|exact E|exact G].
Qed.
Lemma new_good b : all_good (new_mlist b). Proof. intros m x X. destruct m; discriminate X. Qed.
(** Whatever has happened to a list: nothing that a living model of it refers to is gone. *)
Theorem C94_no_model_dangles :
  forall support hs s m x, life (new_mlist support) hs = Ok s -> fair_life (new_mlist support) hs -> model_of s m = Ok x -> pointers_good x.
Proof. intros support hs s m x H F X. exact (life_good _ _ _ H F (new_good _) m x X). Qed.
Print Assumptions C94_no_model_dangles.
(** So everything that can be asked of a living model, or done with it, is defined: whether it has unsaved changes, its text as a diff, saving it
    whatever the outside answers, any further calls that respect their preconditions, and its deletion. *)
Theorem C94_living_models_usable :
  forall support hs s m x, life (new_mlist support) hs = Ok s -> fair_life (new_mlist support) hs -> model_of s m = Ok x ->
  (exists u, has_unsaved x = Ok u) /\ (exists t, recreate_diff x = Ok t) /\ (forall e, exists o, save_destination e x = Ok o) /\
  (forall qhash cs, all_respected qhash x cs -> exists y, do_calls qhash x cs = Ok y) /\ (exists rest, destroy_model x = Ok rest).
Proof.
  intros support hs s m x H F X. pose proof (C94_no_model_dangles _ _ _ _ _ H F X) as G. pose proof (good_sound _ G) as [S1 S2].
  assert (U : exists u, has_unsaved x = Ok u) by (unfold has_unsaved; destruct (deref_all_in_range _ _ S1) as [ds ->]; cbn [bind]; eauto). split; [exact U|]. split; [|split; [|split]].
  - unfold recreate_diff. assert (R : exists t, recreate_hunks (dm_store x) (dm_hunks x) = Ok t).
    { revert S2. generalize (dm_hunks x). induction l as [|h l IH]; intros S2; cbn [recreate_hunks]; [eauto|]. inversion S2 as [|? ? Q1 Q2]; subst. unfold recreate_hunk. destruct (deref_all_in_range _ _ Q1) as [ds ->]. cbn [bind].
      destruct (IH Q2) as [t ->]. destruct (h_type h); cbn [bind]; eauto. }
    destruct R as [t ->]. cbn [bind]. eauto.
  - intros e. unfold save_destination. destruct U as [u ->]. cbn [bind]. destruct (negb u); [eauto|]. destruct (negb (se_open e)); [eauto|]. 
    destruct (saved_lines_ok (dm_store x) (dm_hunks x)) as [ls ->]; [intros h IN i J; exact (proj1 (proj2 G) h i IN J)|]. cbn [bind]. destruct (negb (se_write e)); [eauto|]. destruct (negb (se_close e)); [eauto|]. destruct (_ && _)%bool; [eauto|].
    destruct (se_copy e); [|eauto]. destruct (clear_in_range _ _ S1) as [st ->]. cbn [bind]. eauto.
  - intros qhash cs R. destruct (C69_calls_defined qhash cs x G R) as (y & Y & _). eauto.
  - unfold destroy_model. destruct (delete_list_ok (dm_diffs x) (fun i => Nat.ltb i (length (dm_store x)))) as (rest & R & _); [apply G|intros i I; apply Nat.ltb_lt; exact (proj1 G i I)|]. eauto.
Qed.
Print Assumptions C94_living_models_usable.
(** And so are, at any time, ModelList::hasUnsavedChanges() and ModelList::saveAll(), and ModelList::recreateDiff() while there is a list. *)
Lemma any_unsaved_total s l : (forall m, In m l -> alive s m) -> all_good s -> exists u, any_unsaved s l = Ok u.
Proof.
  induction l as [|m l IH]; intros A G; cbn [any_unsaved]; [eauto|]. destruct (A m (or_introl eq_refl)) as [x X]. rewrite X. cbn [bind]. unfold has_unsaved. destruct (deref_all_in_range (dm_store x) (dm_diffs x)) as [ds ->]; [apply good_sound; exact (G _ _ X)|].
  cbn [bind]. destruct (existsb _ _); [eauto|]. apply IH; [intros z Z; apply A; now right|exact G].
Qed.
Lemma save_total e x : pointers_good x -> exists o, save_destination e x = Ok o.
Proof.
  intros G. pose proof (good_sound _ G) as [S1 S2]. unfold save_destination, has_unsaved. destruct (deref_all_in_range _ _ S1) as [ds ->]. cbn [bind]. destruct (negb _); [eauto|]. destruct (negb (se_open e)); [eauto|]. 
  destruct (saved_lines_ok (dm_store x) (dm_hunks x)) as [ls ->]; [intros h IN i J; exact (proj1 (proj2 G) h i IN J)|]. cbn [bind]. destruct (negb (se_write e)); [eauto|]. destruct (negb (se_close e)); [eauto|]. destruct (_ && _)%bool; [eauto|].
  destruct (se_copy e); [|eauto]. destruct (clear_in_range _ _ S1) as [st ->]. cbn [bind]. eauto.
Qed.
Lemma save_models_total envs l : forall k s, (forall m, In m l -> alive s m) -> all_good s -> exists r, save_models envs k s l = Ok r.
Proof.
  induction l as [|m l IH]; intros k s A G; cbn [save_models]; [eauto|]. destruct (A m (or_introl eq_refl)) as [x X].
  assert (R : exists r, save_model (envs k) s m = Ok r) by (unfold save_model; rewrite X; cbn [bind]; destruct (save_total (envs k) x (G _ _ X)) as [o ->]; cbn [bind]; eauto).
  destruct R as [[s1 b] R]. rewrite R. cbn [bind]. destruct b; [|eauto]. pose proof (far_save _ _ _ _ _ R) as F. apply IH.
  - intros z Z. apply F. apply A. now right.
  - eapply keeps_kin; [eapply mild_save; exact R|exact F|exact G].
Qed.
Theorem C94_list_usable :
  forall support hs s, life (new_mlist support) hs = Ok s -> fair_life (new_mlist support) hs ->
  (exists u, has_unsaved_changes s = Ok u) /\ (forall envs, exists r, save_all_models envs s = Ok r) /\
  (forall l, ml_models s = Some l -> exists xs t, Forall2 (fun m x => model_of s m = Ok x) l xs /\ recreate_all xs = Ok t).
Proof.
  intros support hs s H F. destruct (new_invariant support) as [_ K]. destruct (life_invariant _ _ _ H) as (_ & _ & P). destruct (P K) as [N A]. clear P K. pose proof (life_good _ _ _ H F (new_good _)) as G. unfold listed in A.
  split; [|split].
  - unfold has_unsaved_changes. destruct (ml_models s) as [l|]; [|eauto]. rewrite Forall_forall in A. now apply any_unsaved_total.
  - intros envs. unfold save_all_models, model_count, the_list. destruct (ml_models s) as [l|]; [|cbn; eauto]. destruct (Z.eqb _ _); [eauto|]. cbn [bind]. rewrite Forall_forall in A. now apply save_models_total.
  - intros l M. rewrite M in A. clear M N. induction A as [|m l [x X] _ (xs & t & B & R)]; [exists [], []; split; [constructor|reflexivity]|].
    destruct (C94_living_models_usable _ _ _ _ _ H F X) as (_ & [t' T] & _). exists (x :: xs), (t' ++ t). split; [now constructor|]. cbn [recreate_all]. rewrite T. cbn [bind]. rewrite R. reflexivity.
Qed.
Print Assumptions C94_list_usable.

(** * C92 *)
(** The same, with saves that wait. *)
Fixpoint fair_passes (l : loop) (vs : list event) : Prop :=
  match vs with
  | [] => True
  | v :: vs' => match v with Else o h => fair (outside_on o (lp_files l)) (lp_list l) h | _ => True end /\ forall l', happens l v = Ok l' -> fair_passes l' vs'
  end.
Lemma like_good s s' : PropsNested.like s s' -> keeps s s'.
Proof. intros (H & _). now apply keeps_heap. Qed.
Lemma happens_good l v l' : match v with Else o h => fair (outside_on o (lp_files l)) (lp_list l) h | _ => True end -> happens l v = Ok l' -> keeps (lp_list l) (lp_list l').
Proof.
  intros F. destruct v as [e|e m|e|e ok|o h]; cbn [happens]; intros H.
  - destruct (ml_sel (lp_list l)); [|injection H as <-; now apply keeps_heap]. apply start_ok in H. now apply like_good.
  - apply start_ok in H. now apply like_good.
  - destruct (Z.eqb _ _); [injection H as <-; now apply keeps_heap|]. step H. apply go_on_ok in H. now apply like_good.
  - unfold returned in H. destruct (lp_stack l) as [|v r]; [injection H as <-; now apply keeps_heap|].
    assert (B : forall l', begin_copy v r l = Ok l' -> lp_list l' = lp_list l) by (intros k Q; unfold begin_copy in Q; step Q; injection Q as <-; reflexivity).
    destruct (sv_stage v).
    + destruct (_ && _)%bool; [injection H as <-; now apply keeps_heap|]. apply B in H. rewrite H. now apply keeps_heap.
    + destruct ok; [apply B in H; rewrite H; now apply keeps_heap|]. apply ended_ok in H as (A & _). cbn [lp_list] in A. apply like_good. eapply like_trans; [apply like_emit|exact A].
    + destruct ok; [|apply ended_ok in H as (A & _); cbn [lp_list] in A; apply like_good; eapply like_trans; [apply like_emit|exact A]].
      step H. step H. apply ended_ok in H as (A & _). cbn [lp_list] in A. eapply keeps_to; [|apply like_good; exact A]. eapply keeps_put; [exact E|]. apply tame_kin; [|reflexivity|reflexivity]. apply kin_store. eapply clear_kin. exact E0.
  - assert (K : (do s <- occur (outside_on o (lp_files l)) (lp_list l) h; Ok (mk_loop s (lp_files l) (lp_stack l))) = Ok l' -> keeps (lp_list l) (lp_list l'))
      by (intros Q; step Q; injection Q as <-; eapply occur_sound; [exact F|exact E]).
    destruct h; try (apply K; exact H); injection H as <-; now apply keeps_heap.
Qed.
Lemma passes_good vs : forall l l', passes l vs = Ok l' -> fair_passes l vs -> all_good (lp_list l) -> all_good (lp_list l').
Proof.
  induction vs as [|v vs IH]; intros l l' H F G; cbn [passes fair_passes] in *; [now injection H as <-|]. step H. destruct F as [F1 F2]. eapply IH; [exact H|now apply F2|]. eapply happens_good; [exact F1|exact E|exact G].
Qed.
(** A save that waits goes on without touching freed memory, whatever its job answers and whatever has happened, if
    no model of a save under way was freed and (for a save of everything) the list is the one it goes through. *)
Theorem C92_saving_is_safe_always_partial :
  forall support f vs l e ok, passes (mk_loop (new_mlist support) f []) vs = Ok l -> fair_passes (mk_loop (new_mlist support) f []) vs ->
  spares (mk_loop (new_mlist support) f []) vs ->
  match lp_stack l with mk_sv (ByAll all _) _ _ _ _ _ :: _ => ml_models (lp_list l) = Some all | _ => True end ->
  exists l', happens l (Return e ok) = Ok l'.
Proof.
  intros support f vs l e ok H F S LI. eapply C92_saving_is_safe_partial; [exact H|exact S| |exact LI]. intros m x X. apply good_sound. exact (passes_good _ _ _ H F (new_good _) m x X).
Qed.
Print Assumptions C92_saving_is_safe_always_partial.

(** * Examples *)
Lemma fair_plain hs : Forall (fun oh : outside * happening => (forall l, Permutation (os_sort (fst oh) l) l) /\ match snd oh with HModel _ _ => False | _ => True end) hs -> forall s, fair_life s hs.
Proof.
  induction 1 as [|[o h] hs [P N] _ IH]; intros s; cbn [fair_life]; [exact I|]. split; [|intros s' _; apply IH]. split; [exact P|]. cbn [snd] in N. destruct h; try exact I. destruct N.
Qed.
Lemma fair_app hs hs' : forall s, fair_life s hs -> (forall s', life s hs = Ok s' -> fair_life s' hs') -> fair_life s (hs ++ hs').
Proof.
  induction hs as [|[o h] hs IH]; intros s F G; cbn [app fair_life life] in *; [now apply G|]. destruct F as [F1 F2]. split; [exact F1|]. intros s' E. apply IH; [now apply F2|]. intros s'' L. apply G. now rewrite E.
Qed.
Definition before_edit : list (outside * happening) := map (fun h => (here, h)) [HInfo two_urls; HRefresh; HFinished true NormalExit two_files []; HActApply].
(** The document of the first file is edited by its holder, then the other file is shown, saved, and everything is unapplied. *)
Definition edited : dmodel := match life (new_mlist true) before_edit with Ok s => match model_of s 0 with Ok x => match do_calls ex_hash x [EditLines [nl "1"] [nl "one"] 1] with Ok y => y | _ => x end | _ => new_model [] [] end | _ => new_model [] [] end.
Definition after_edit : list (outside * happening) := map (fun h => (here, h)) [HModel 0 edited; HNextModel; HApplyAll true; HSaveAll (fun _ => good); HActApplyAll false].
Lemma fair_cons o h hs s : fair o s h -> (forall s', fair_life s' hs) -> fair_life s ((o, h) :: hs).
Proof. intros F G. split; [exact F|]. intros s' _. apply G. Qed.
Example C94_example : exists s x y, life (new_mlist true) (before_edit ++ after_edit) = Ok s /\ fair_life (new_mlist true) (before_edit ++ after_edit) /\ model_of s 0 = Ok x /\ model_of s 1 = Ok y /\
  (exists i d, dm_diffs x = [i] /\ nth_error (dm_store x) i = Some d /\ map ds_string (d_dlines d) = [nl "one"; nl "x"]) /\ has_unsaved y = Ok true.
Proof.
  assert (G : forall r, match r with Ok s => match model_of s 0, model_of s 1 with Ok x, Ok y => match dm_diffs x, has_unsaved y with [i], Ok true =>
       match nth_error (dm_store x) i with Some d => if list_eq_dec (list_eq_dec N.eq_dec) (map ds_string (d_dlines d)) [nl "one"; nl "x"] then true else false | None => false end | _, _ => false end | _, _ => false end | _ => false end = true ->
     exists s x y, r = Ok s /\ model_of s 0 = Ok x /\ model_of s 1 = Ok y /\ (exists i d, dm_diffs x = [i] /\ nth_error (dm_store x) i = Some d /\ map ds_string (d_dlines d) = [nl "one"; nl "x"]) /\ has_unsaved y = Ok true).
  { intros [s| |] K; try discriminate K. destruct (model_of s 0) as [x| |] eqn:X; try discriminate K. destruct (model_of s 1) as [y| |] eqn:Y; try discriminate K. destruct (dm_diffs x) as [|i [|j l]] eqn:D; try discriminate K.
    destruct (has_unsaved y) as [[]| |] eqn:U; try discriminate K. destruct (nth_error (dm_store x) i) as [d|] eqn:N; try discriminate K. destruct (list_eq_dec _ _ _) as [L|]; try discriminate K.
    exists s, x, y. repeat (split; [first [assumption|reflexivity]|]). split; [|assumption]. exists i, d. auto. }
  destruct (G (life (new_mlist true) (before_edit ++ after_edit))) as (s & x & y & A & B & C & D & E); [vm_compute; reflexivity|]. exists s, x, y. split; [exact A|]. split; [|split; [exact B|split; [exact C|split; [exact D|exact E]]]]. clear A B C D E s x y G.
  assert (P : forall l, Permutation (os_sort here l) l) by (intros l; apply Permutation_refl).
  apply fair_app; [apply fair_plain; repeat (constructor; [split; [exact P|exact I]|]); constructor|]. intros s' L. apply (fair_cons here (HModel 0 edited) (map (fun h => (here, h)) [HNextModel; HApplyAll true; HSaveAll (fun _ => good); HActApplyAll false])); [split; [exact P|]|].
  - intros x' X'. exists ex_hash, [EditLines [nl "1"] [nl "one"] 1].
    assert (Q : forall r, match r with Ok s => match model_of s 0 with Ok x => match lines_changed ex_hash x [nl "1"] [nl "one"] 1 with Ok _ => true | _ => false end | _ => false end | _ => false end = true -> r = Ok s' -> exists w, lines_changed ex_hash x' [nl "1"] [nl "one"] 1 = Ok w).
    { intros r K ->. rewrite X' in K. destruct (lines_changed _ _ _ _ _) as [w| |]; try discriminate K. eauto. }
    destruct (Q (life (new_mlist true) before_edit)) as [w W]; [vm_compute; reflexivity|exact L|]. clear Q. cbn [all_respected respected]. split; [split; [eauto|auto]|]. unfold edited. rewrite L, X'. cbn [do_calls do_call]. rewrite W. reflexivity.
  - intros s1. apply fair_plain. repeat (constructor; [split; [exact P|exact I]|]). constructor.
Qed.
Lemma fair_events vs : Forall (fun v => match v with Else o (HModel _ _) => False | Else o _ => forall l, Permutation (os_sort o l) l | _ => True end) vs -> forall l, fair_passes l vs.
Proof.
  induction 1 as [|v vs P _ IH]; intros l; cbn [fair_passes]; [exact I|]. split; [|intros l' _; apply IH]. destruct v as [| | | |o h]; try exact I. destruct h; try (split; [exact P|exact I]). destruct P.
Qed.
Example C92_always_example : fair_passes (mk_loop (new_mlist true) disk []) applied_while_saving.
Proof. apply fair_events. repeat (constructor; [first [exact I|intros l; apply Permutation_refl]|]). constructor. Qed.
