(** C83, C84, C85: whatever happens to a list of models. *)
From Coq Require Import String Permutation.
From Verif Require Import Base QtStr Diff Save Parser SpecHistory SpecPatch SpecParse Blend SpecBlend Info ModelList Life SpecList PHistory PEditLines PUnifiedDoc PBlend PSave PModelState PList PListOpen PropsList PKin PFar.
Local Open Scope Z_scope.

Definition listed (s : mlist) : list nat := match ml_models s with Some l => l | None => [] end.
(** The models of the list live, and none is in it twice. *)
Definition known (s : mlist) : Prop := NoDup (listed s) /\ Forall (alive s) (listed s).
Lemma alive_range s m : alive s m -> (m < length (ml_heap s))%nat.
Proof. intros [x E]. unfold model_of in E. apply nth_error_Some. destruct (nth_error (ml_heap s) m); [discriminate|discriminate E]. Qed.
Lemma far_known s s' : far s s' -> known s -> known s'.
Proof.
  intros (_ & _ & M & _ & A & _) [N F]. unfold known, listed in *. rewrite M. split; [exact N|]. eapply Forall_impl; [|exact F]. intros m. apply A.
Qed.
(** Reading a diff: the models of the list are gone and the new ones are the list. *)
Record reads (s s' : mlist) : Prop := {
  rd_save : ml_has_save s' = ml_has_save s; rd_rw : ml_rw s' = ml_rw s; rd_off : off s -> off s';
  rd_new : exists k, length (ml_heap s') = (length (ml_heap s) + k)%nat /\
    (forall m, alive s' m <-> (alive s m /\ ~ In m (listed s)) \/ (length (ml_heap s) <= m < length (ml_heap s) + k)%nat) /\
    (ml_models s' = Some (seq (length (ml_heap s)) k) \/ ml_models s' = None /\ k = 0%nat) }.
Lemma reads_far s a b : reads s a -> far a b -> reads s b.
Proof.
  intros [S R O (k & L & A & M)] (B1 & B2 & B3 & B4 & B5 & B6). split; [congruence|congruence|auto|]. exists k. split; [congruence|]. split.
  - intros m. rewrite <- B5. apply A.
  - rewrite B3. exact M.
Qed.
Lemma reads_known s s' : reads s s' -> known s'.
Proof.
  intros [_ _ _ (k & L & A & [M|[M K]])]; unfold known, listed; rewrite M; (split; [first [apply seq_NoDup|constructor]|]); [|constructor].
  apply Forall_forall. intros m I. apply in_seq in I. apply A. right. lia.
Qed.
Lemma far_before a s s' : ml_heap s = ml_heap a -> ml_models s = ml_models a -> ml_has_save s = ml_has_save a -> ml_rw s = ml_rw a -> ml_act s = ml_act a -> reads s s' -> reads a s'.
Proof.
  intros H M S R T [A B C (k & D & E & F)]. split; [congruence|congruence| |].
  - intros O. apply C. revert O. unfold off. now rewrite S, R, T.
  - exists k. rewrite <- H. split; [exact D|]. split; [|exact F]. intros m. rewrite E. unfold listed, alive, model_of. now rewrite H, M.
Qed.
Lemma update_none (h : list (option dmodel)) : forall m n, nth_error (update h m None) n = (if Nat.eqb m n then match nth_error h n with Some _ => Some None | None => None end else nth_error h n).
Proof.
  induction h as [|a h IH]; intros [|m] [|n]; cbn [update nth_error Nat.eqb]; try reflexivity.
  - now destruct (Nat.eqb m n).
  - apply IH.
Qed.
Lemma delete_all_length l : forall h, length (delete_all l h) = length h.
Proof. induction l as [|m l IH]; intros h; cbn [delete_all]; [reflexivity|]. now rewrite IH, update_length. Qed.
Lemma deleted l : forall h m x, nth_error (delete_all l h) m = Some (Some x) <-> nth_error h m = Some (Some x) /\ ~ In m l.
Proof.
  induction l as [|a l IH]; intros h m x; cbn [delete_all In]; [tauto|]. rewrite IH, update_none. destruct (Nat.eqb a m) eqn:E.
  - apply Nat.eqb_eq in E. subst. destruct (nth_error h m); intuition (try discriminate; congruence).
  - apply Nat.eqb_neq in E. intuition.
Qed.
Lemma parse_reads o s diff s' b : parse_diff_output o s diff = Ok (s', b) -> reads s s'.
Proof.
  unfold parse_diff_output. intros H. step H. rename a into p. cbn [emit ml_models ml_heap] in H.
  set (h := match ml_models s with Some l => delete_all l (ml_heap s) | None => ml_heap s end) in *.
  assert (LH : length h = length (ml_heap s)) by (unfold h; destruct (ml_models s); [apply delete_all_length|reflexivity]).
  assert (AH : forall m, (exists x, nth_error h m = Some (Some x)) <-> (alive s m /\ ~ In m (listed s))).
  { intros m. unfold alive, model_of, listed, h. destruct (ml_models s) as [l|].
    - split; [intros [x E']; apply deleted in E' as [E1 E2]; rewrite E1; eauto|]. intros [[x X] N]. destruct (nth_error (ml_heap s) m) as [[y|]|] eqn:Y; try discriminate. exists y. now apply deleted.
    - split; [intros [x ->]; eauto|]. intros [[x X] _]. destruct (nth_error (ml_heap s) m) as [[y|]|]; try discriminate. eauto. }
  assert (G : forall ms s0, ml_heap s0 = h ++ map Some ms -> ml_has_save s0 = ml_has_save s -> ml_rw s0 = ml_rw s -> ml_act s0 = ml_act s ->
     (ml_models s0 = Some (seq (length h) (length ms)) \/ ml_models s0 = None /\ ms = []) -> reads s s0).
  { intros ms s0 H0 S0 R0 A0 M0. split; [exact S0|exact R0|unfold off; now rewrite S0, R0, A0|]. exists (length ms). rewrite H0, app_length, map_length, LH. split; [reflexivity|]. split.
    - intros m. rewrite <- AH. unfold alive, model_of. rewrite H0. destruct (Nat.lt_ge_cases m (length h)) as [L|L].
      + rewrite nth_error_app1 by exact L. split; [intros [x X]; destruct (nth_error h m) as [[y|]|]; try discriminate; left; eauto|].
        intros [[x ->]|X]; [eauto|lia].
      + rewrite nth_error_app2 by exact L. split.
        * intros [x X]. right. destruct (nth_error (map Some ms) (m - length h)) eqn:N; [|discriminate]. assert (Q : nth_error (map Some ms) (m - length h) <> None) by congruence. apply nth_error_Some in Q. rewrite map_length in Q. lia.
        * intros [[x X]|X]; [assert (Q : nth_error h m <> None) by congruence; apply nth_error_Some in Q; lia|]. destruct (nth_error ms (m - length h)) as [y|] eqn:N; [|apply nth_error_None in N; lia].
          exists y. now rewrite nth_error_map, N.
    - rewrite LH in M0. destruct M0 as [M0|[M0 ->]]; [left|right]; auto. }
  destruct (po_models p) as [ms|] eqn:PM; cbn [with_models] in H.
  - step H. cbn [with_info ml_models with_models] in H. step H. step H. step H. injection H as <- _.
    eapply reads_far; [|eapply far_trans; [eapply far_first_model; exact E1|eapply far_trans; [eapply far_first; exact E2|plain_far]]].
    apply (G ms); destruct (po_malformed p); try reflexivity; left; reflexivity.
  - step H. cbn [with_info ml_models with_models] in H. injection H as <- _. apply (G []); try reflexivity; [cbn; now rewrite app_nil_r|]. right. split; reflexivity.
Qed.
Lemma far_blend_model s m text s' : blend_model s m text = Ok s' -> far s s'.
Proof.
  unfold blend_model. intros H. step H. step H. step H. eapply far_trans; [|eapply far_trans; [eapply far_first_model; exact E1|eapply far_first; exact H]].
  do 3 (split; [reflexivity|]). split; [apply update_length|]. split; [intros m'; eapply alive_put; exact E|exact (fun Q => Q)].
Qed.
Lemma far_blend_dir o url l : forall s b s' b', blend_dir o url s l b = Ok (s', b') -> far s s'.
Proof.
  induction l as [|m l IH]; intros s b s' b' H; cbn [blend_dir] in H; [injection H as <- _; apply far_refl|]. step H. step H. eapply far_trans; [eapply far_blend_model; exact E0|eapply IH; exact H].
Qed.
Lemma far_blend_original o s url s' b : blend_original o s url = Ok (s', b) -> far s s'.
Proof.
  unfold blend_original. intros H. destruct (os_is_dir o url); [step H; eapply far_blend_dir; exact H|]. destruct (os_is_file o url); [|injection H as <- _; apply far_refl].
  step H. step H. step H. injection H as <- _. eapply far_blend_model. exact E1.
Qed.
Lemma far_show s s' : show s = Ok s' -> far s s'.
Proof. unfold show. intros H. step H. injection H as <-. plain_far. Qed.
Lemma far_depth i l : forall s s', depth_and_applied i s l = Ok s' -> far s s'.
Proof.
  induction l as [|m l IH]; intros s s' H; cbn [depth_and_applied] in H; [injection H as <-; apply far_refl|]. step H. step H. eapply far_trans; [|eapply IH; exact H].
  do 3 (split; [reflexivity|]). split; [apply update_length|]. split; [intros m'; eapply alive_put; exact E|exact (fun Q => Q)].
Qed.
(** The list is emptied, and the models that were in it are left alone. *)
Record cleared (s s' : mlist) : Prop := {
  cl_heap : ml_heap s' = ml_heap s; cl_save : ml_has_save s' = ml_has_save s; cl_rw : ml_rw s' = ml_rw s; cl_act : ml_act s' = ml_act s;
  cl_empty : listed s' = [] }.
Lemma clear_cleared s : cleared s (clear s).
Proof. unfold clear. destruct (ml_models s) eqn:M; split; cbn; try reflexivity; unfold listed; cbn; now rewrite ?M. Qed.
Lemma cleared_mode s : cleared s (compare_mode s).
Proof. unfold compare_mode. destruct (clear_cleared s). split; assumption. Qed.
(** A diff is read after the list has been emptied. *)
Record opens (s s' : mlist) : Prop := {
  op_save : ml_has_save s' = ml_has_save s; op_rw : ml_rw s' = ml_rw s; op_off : off s -> off s';
  op_new : exists k, length (ml_heap s') = (length (ml_heap s) + k)%nat /\
    (forall m, alive s' m <-> alive s m \/ (length (ml_heap s) <= m < length (ml_heap s) + k)%nat) /\
    (ml_models s' = Some (seq (length (ml_heap s)) k) \/ listed s' = [] /\ k = 0%nat) }.
Lemma opens_reads s a b : cleared s a -> reads a b -> opens s b.
Proof.
  intros [A1 A2 A3 A4 A5] [S R O (k & L & V & M)]. split; [congruence|congruence| |].
  - intros Q. apply O. revert Q. unfold off. now rewrite A2, A3, A4.
  - exists k. rewrite A1, A5 in *. split; [exact L|]. split; [|destruct M as [M|[M K]]; [now left|right; unfold listed; now rewrite M]].
    intros m. rewrite V. unfold alive, model_of. rewrite A1. cbn [In]. tauto.
Qed.
Lemma opens_cleared s a : cleared s a -> opens s a.
Proof.
  intros [A1 A2 A3 A4 A5]. split; [congruence|congruence|unfold off; now rewrite A2, A3, A4|]. exists 0%nat. rewrite A1. split; [lia|]. split; [|now right].
  intros m. unfold alive, model_of. rewrite A1. intuition lia.
Qed.
Lemma opens_far s a b : opens s a -> far a b -> opens s b.
Proof.
  intros [S R O (k & L & A & M)] (B1 & B2 & B3 & B4 & B5 & B6). split; [congruence|congruence|auto|]. exists k. split; [congruence|]. split.
  - intros m. rewrite <- B5. apply A.
  - unfold listed in *. rewrite B3. exact M.
Qed.
Lemma opens_known s s' : opens s s' -> known s'.
Proof.
  intros [_ _ _ (k & L & A & [M|[M K]])]; unfold known; [|rewrite M; split; constructor]. unfold listed; rewrite M; (split; [apply seq_NoDup|]).
  apply Forall_forall. intros m I. apply in_seq in I. apply A. right. lia.
Qed.
Lemma opens_parse o s diff s' b : parse_and_open o s diff = Ok (s', b) -> opens s s'.
Proof.
  unfold parse_and_open. intros H. step H. destruct a as [s1 ok]. apply parse_reads in E.
  assert (C : cleared s (emit (Status Parsing) (clear s))) by (destruct (clear_cleared s); split; assumption).
  assert (P : opens s s1) by (eapply opens_reads; eassumption). destruct ok.
  - step H. step H. injection H as <- _. eapply opens_far; [exact P|]. eapply far_trans; [eapply far_update; exact E0|]. eapply far_trans; [eapply far_show; exact E1|plain_far].
  - injection H as <- _. eapply opens_far; [exact P|plain_far].
Qed.
Lemma opens_blend o s s' b : open_and_blend o s = Ok (s', b) -> opens s s'.
Proof.
  unfold open_and_blend. intros H. step H. step H. destruct a0 as [s1 ok]. apply parse_reads in E0.
  assert (P : opens s s1) by (eapply opens_reads; [apply clear_cleared|exact E0]). destruct ok; cbn [negb] in H.
  - step H. step H. step H. step H. destruct a3 as [s2 ok]. assert (F : far s1 s2) by (eapply far_trans; [eapply far_depth; exact E3|eapply far_blend_original; exact E4]). destruct ok; cbn [negb] in H.
    + step H. step H. injection H as <- _. eapply opens_far; [exact P|]. eapply far_trans; [exact F|]. eapply far_trans; [eapply far_update; exact E5|eapply far_show; exact E6].
    + injection H as <- _. eapply opens_far; [exact P|]. eapply far_trans; [exact F|plain_far].
  - injection H as <- _. eapply opens_far; [exact P|plain_far].
Qed.
Lemma opens_before a s s' : ml_heap s = ml_heap a -> ml_has_save s = ml_has_save a -> ml_rw s = ml_rw a -> ml_act s = ml_act a -> opens s s' -> opens a s'.
Proof.
  intros H S R T [A B C (k & D & E & F)]. split; [congruence|congruence| |].
  - intros O. apply C. revert O. unfold off. now rewrite S, R, T.
  - exists k. rewrite <- H. split; [exact D|]. split; [|exact F]. intros m. rewrite E. unfold alive, model_of. now rewrite H.
Qed.
Lemma opens_compare o s s' b : compare o s = Ok (s', b) -> opens s s'.
Proof.
  unfold compare. intros H. step H.
  assert (C : forall i s' b, Ok (compare_mode (with_info s (Some i)), true) = Ok (s', b) -> opens s s').
  { intros i s0 b0 Q. injection Q as <- _. eapply opens_before; [..|apply opens_cleared, cleared_mode]; reflexivity. }
  assert (B : forall i s' b, open_and_blend o (with_info s (Some i)) = Ok (s', b) -> opens s s').
  { intros i s0 b0 Q. apply opens_blend in Q. eapply opens_before; [..|exact Q]; reflexivity. }
  destruct (_ && _)%bool; [eapply C; exact H|]. destruct (_ && _)%bool; [|destruct (_ && _)%bool; eapply B; exact H].
  destruct (_ && _)%bool; [eapply B; exact H|]. destruct (_ && _)%bool; [eapply B|eapply C]; exact H.
Qed.
Lemma finished_cases o s success st out err s' : slot_diff_process_finished o s success st out err = Ok s' -> if success then reads s s' else far s s'.
Proof.
  unfold slot_diff_process_finished. intros H. destruct (negb (ml_process s)); [discriminate|]. step H. injection H as <-. destruct success.
  - step E. destruct a0 as [s1 ok]. apply parse_reads in E0. apply (far_before s) in E0; try reflexivity. step E. injection E as <-.
    eapply reads_far; [exact E0|]. destruct ok; cbn [negb] in E1; [|injection E1 as <-; plain_far]. step E1. step E1. step E1.
    eapply far_trans; [|eapply far_trans; [eapply far_update; exact E3|eapply far_trans; [eapply far_show; exact E1|plain_far]]].
    destruct (mode_eqb _ _); [injection E2 as <-; apply far_refl|]. step E2. destruct a3. injection E2 as <-. eapply far_blend_original. exact E4.
  - destruct st; injection E as <-; plain_far.
Qed.
(** Everything that can happen is one of these. *)
Inductive kind (s s' : mlist) : happening -> Prop :=
| k_far h : far s s' -> kind s s' h
| k_opens h : opens s s' -> kind s s' h
| k_reads_output diff : reads s s' -> kind s s' (HParseOutput diff)
| k_reads_finished st out err : reads s s' -> kind s s' (HFinished true st out err)
| k_write b : ml_has_save s' = ml_has_save s -> ml_rw s' = b -> ml_models s' = ml_models s -> (forall m, alive s m <-> alive s' m) -> (off s -> off s') -> kind s s' (HReadWrite b).
Lemma every_kind o s h s' : occur o s h = Ok s' -> kind s s' h.
Proof.
  destruct h; cbn [occur]; intros H.
  - apply k_far. now apply far_slot_next.
  - apply k_far. now apply far_slot_previous.
  - apply k_far. now apply far_slot_next_model.
  - apply k_far. now apply far_slot_previous_model.
  - apply k_far. eapply far_pair. exact H.
  - apply k_far. eapply far_single. exact H.
  - apply k_far. eapply far_apply. exact H.
  - apply k_far. eapply far_apply_all. exact H.
  - apply k_far. unfold slot_action_apply in H. step H. step H. step H. apply far_update in H. apply far_slot_next in E1. eapply far_trans; [|eapply far_trans; [exact E1|exact H]].
    destruct (d_applied a); [injection E0 as <-; apply far_refl|eapply far_apply; exact E0].
  - apply k_far. unfold slot_action_unapply in H. step H. step H. step H. apply far_update in H. apply far_slot_previous in E1. eapply far_trans; [|eapply far_trans; [exact E1|exact H]].
    destruct (d_applied a); [eapply far_apply; exact E0|injection E0 as <-; apply far_refl].
  - apply k_far. unfold slot_action_apply_all in H. step H. apply far_update in H. eapply far_trans; [eapply far_apply_all; exact E|exact H].
  - apply k_far. eapply far_slot_save. exact H.
  - apply k_far. step H. destruct a as [s1 b]. injection H as <-. eapply far_save. exact E.
  - apply k_far. step H. destruct a as [s1 b]. injection H as <-. unfold save_all_models in E. destruct (Z.eqb _ _); [injection E as <- _; apply far_refl|]. step E. eapply far_save_models. exact E.
  - unfold set_read_write in H. destruct (Bool.eqb _ _) eqn:B; [injection H as <-; apply k_far, far_refl|].
    pose proof (far_update _ _ H) as (F1 & F2 & F3 & F4 & F5 & _). apply k_write; try assumption. intros Q. apply (update_off _ _ H). destruct (ml_has_save s) eqn:S; [left; exact S|]. right.
    unfold off in *. cbn [with_rw ml_rw ml_has_save ml_act]. intros _. apply Q. rewrite S. apply andb_false_r.
  - injection H as <-. apply k_far. plain_far.
  - injection H as <-. apply k_opens, opens_cleared, clear_cleared.
  - apply k_far. now apply far_show.
  - step H. destruct a. injection H as <-. apply k_opens. eapply opens_compare. exact E.
  - unfold refresh in H. step H. injection H as <-. apply k_opens, opens_cleared, cleared_mode.
  - unfold swap in H. step H. destruct (in_mode a); injection H as <-; first [apply k_opens, opens_cleared, cleared_mode|apply k_far, far_refl].
  - step H. destruct a. injection H as <-. unfold open_diff in E. destruct file; [injection E as <- _; apply k_far, far_refl|]. apply k_opens. eapply opens_parse. exact E.
  - step H. destruct a. injection H as <-. apply k_opens. eapply opens_parse. exact E.
  - step H. destruct a. injection H as <-. apply k_opens. eapply opens_blend. exact E.
  - step H. destruct a. injection H as <-. apply k_reads_output. eapply parse_reads. exact E.
  - step H. destruct a. injection H as <-. apply k_far. eapply far_blend_original. exact E.
  - apply finished_cases in H. destruct success; [now apply k_reads_finished|now apply k_far].
  - step H. injection H as <-. apply k_far. do 3 (split; [reflexivity|]). split; [apply update_length|]. split; [intros m'; eapply alive_put; exact E|exact (fun Q => Q)].
Qed.
Lemma step_invariant o s h s' : occur o s h = Ok s' -> ml_has_save s' = ml_has_save s /\ (off s -> off s') /\ (known s -> known s').
Proof.
  intros H. apply every_kind in H. destruct H as [h F|h F|diff F|st out err F|b S R M A O].
  - split; [apply F|]. split; [apply F|]. now apply far_known.
  - split; [apply F|]. split; [apply F|]. intros _. eapply opens_known. exact F.
  - split; [apply F|]. split; [apply F|]. intros _. eapply reads_known. exact F.
  - split; [apply F|]. split; [apply F|]. intros _. eapply reads_known. exact F.
  - split; [exact S|]. split; [exact O|]. intros [N F]. unfold known, listed in *. rewrite M. split; [exact N|]. eapply Forall_impl; [|exact F]. intros m. apply A.
Qed.
Lemma life_invariant l : forall s s', life s l = Ok s' -> ml_has_save s' = ml_has_save s /\ (off s -> off s') /\ (known s -> known s').
Proof.
  induction l as [|[o h] l IH]; intros s s' H; cbn [life] in H; [injection H as <-; auto|]. step H. apply step_invariant in E as (E1 & E2 & E3). apply IH in H as (H1 & H2 & H3).
  split; [congruence|]. auto.
Qed.
Lemma new_invariant b : off (new_mlist b) /\ known (new_mlist b).
Proof. split; [intros _; repeat split|split; constructor]. Qed.

(** * C83 *)
(** A list that is made without support for writing, or that is set to read-only, offers none of the five editing actions,
    whatever has happened to it before and whatever the outside has answered. *)
Theorem C83_read_only_means_no_editing :
  forall support hs s, life (new_mlist support) hs = Ok s -> support = false \/ ml_rw s = false ->
  ac_apply (ml_act s) = false /\ ac_unapply (ml_act s) = false /\ ac_apply_all (ml_act s) = false /\ ac_unapply_all (ml_act s) = false /\ ac_save (ml_act s) = false.
Proof.
  intros support hs s H R. destruct (new_invariant support) as [O _]. destruct (life_invariant _ _ _ H) as (S & P & _). apply (P O). rewrite S. cbn [new_mlist ml_has_save].
  destruct R as [-> | ->]; [apply andb_false_r|reflexivity].
Qed.
Print Assumptions C83_read_only_means_no_editing.
(** isReadWrite() is what was last set, or what the list was made with. *)
Theorem C83_read_write_as_set :
  forall support hs s, life (new_mlist support) hs = Ok s ->
  ml_rw s = fold_left (fun b (oh : outside * happening) => match snd oh with HReadWrite b' => b' | _ => b end) hs support.
Proof.
  intros support hs s H. enough (K : forall hs s0 s, life s0 hs = Ok s -> ml_rw s = fold_left (fun b (oh : outside * happening) => match snd oh with HReadWrite b' => b' | _ => b end) hs (ml_rw s0)) by exact (K _ _ _ H).
  clear. induction hs as [|[o h] hs IH]; intros s0 s H; cbn [life fold_left snd] in *; [now injection H as <-|]. step H. rewrite (IH _ _ H). f_equal.
  destruct (match h with HReadWrite _ => true | _ => false end) eqn:W.
  - destruct h; try discriminate. cbn [occur] in E. unfold set_read_write in E. destruct (Bool.eqb (ml_rw s0) b) eqn:B; [injection E as <-; now apply eqb_prop|]. apply far_update in E as (_ & E & _). exact E.
  - apply every_kind in E. destruct E as [h F|h F|diff F|st out err F|b S R M A O]; try (destruct h; try discriminate W; apply F); try apply F. discriminate.
Qed.
Print Assumptions C83_read_write_as_set.

(** * C84 *)
(** At every point of every history: what modelAt() gives for a valid index is a living model, and no model is in the list twice. *)
Theorem C84_listed_models_live :
  forall support hs s l, life (new_mlist support) hs = Ok s -> ml_models s = Some l ->
  NoDup l /\ forall i, 0 <= i < model_count s -> exists m x, model_at l i = Ok m /\ model_of s m = Ok x.
Proof.
  intros support hs s l H M. destruct (new_invariant support) as [_ K]. destruct (life_invariant _ _ _ H) as (_ & _ & P). destruct (P K) as [N F]. unfold listed in *. rewrite M in *. split; [exact N|].
  intros i I. unfold model_count in I. rewrite M in I. unfold model_at. destruct (Z.ltb_spec i 0); [lia|]. destruct (nth_error l (Z.to_nat i)) as [m|] eqn:E; [|apply nth_error_None in E; lia].
  rewrite Forall_forall in F. destruct (F m (nth_error_In _ _ E)) as [x X]. eauto.
Qed.
Print Assumptions C84_listed_models_live.

(** * C85 *)
(** A model is freed only if it is in the list when the output of a process (or of parseDiffOutput()) is read, and then it is. *)
Theorem C85_what_is_freed :
  forall o s h s' m, occur o s h = Ok s' -> alive s m ->
  ~ alive s' m <-> In m (listed s) /\ ((exists diff, h = HParseOutput diff) \/ (exists st out err, h = HFinished true st out err)).
Proof.
  intros o s h s' m H A. 
  assert (R : reads s s' -> (~ alive s' m <-> In m (listed s))).
  { intros [_ _ _ (k & _ & V & _)]. rewrite V. pose proof (alive_range s m A). destruct (in_dec Nat.eq_dec m (listed s)); [intuition lia|]. split; [intros Q; exfalso; apply Q; left; auto|tauto]. }
  assert (K : match h with HParseOutput _ => reads s s' | HFinished true _ _ _ => reads s s' | _ => alive s' m end).
  { pose proof (every_kind _ _ _ _ H) as K. assert (V : far s s' \/ opens s s' \/ (forall m, alive s m <-> alive s' m) -> alive s' m).
    { intros [F|[F|F]]; [now apply F|destruct F as [_ _ _ (k & _ & V & _)]; apply V; now left|now apply F]. }
    destruct h; try (apply V; inversion K; subst; auto; fail).
    - cbn [occur] in H. step H. destruct a as [s1 ok]. injection H as <-. eapply parse_reads. exact E.
    - cbn [occur] in H. apply finished_cases in H. destruct success; [exact H|]. apply V. now left. }
  assert (NO : alive s' m -> ~ alive s' m <-> False) by tauto.
  destruct h; try (split; [intros Q; contradiction|intros [_ [(? & Q)|(? & ? & ? & Q)]]; discriminate Q]).
  - rewrite (R K). split; [intros I; split; [exact I|left; eauto]|tauto].
  - destruct success; [|split; [intros Q; contradiction|intros [_ [(? & Q)|(? & ? & ? & Q)]]; discriminate Q]].
    rewrite (R K). split; [intros I; split; [exact I|right; eauto]|tauto].
Qed.
Print Assumptions C85_what_is_freed.
(** Opening a diff, comparing, refreshing and exchanging the sides first empty the list, so the models that were shown are never
    freed: they live on, and the list does not know them any more. *)
Theorem C85_replaced_models_leak :
  forall o s h s' m, occur o s h = Ok s' -> known s -> In m (listed s) ->
  match h with HCompare | HRefresh | HParseAndOpen _ | HOpenAndBlend | HClear => True | _ => False end ->
  alive s' m /\ ~ In m (listed s').
Proof.
  intros o s h s' m H [_ KA] I W. rewrite Forall_forall in KA. specialize (KA m I). pose proof (alive_range s m KA) as L.
  assert (P : opens s s').
  { destruct h; try destruct W; cbn [occur] in H.
    - injection H as <-. apply opens_cleared, clear_cleared.
    - step H. destruct a. injection H as <-. eapply opens_compare. exact E.
    - unfold refresh in H. step H. injection H as <-. apply opens_cleared, cleared_mode.
    - step H. destruct a. injection H as <-. eapply opens_parse. exact E.
    - step H. destruct a. injection H as <-. eapply opens_blend. exact E. }
  destruct P as [_ _ _ (k & _ & V & [M|[M _]])]; (split; [apply V; now left|]); [|now rewrite M]. unfold listed. rewrite M. rewrite in_seq. lia.
Qed.
Print Assumptions C85_replaced_models_leak.
(** A living model that is not in the list stays so for ever. *)
Theorem C85_leaked_for_ever :
  forall hs s s' m, life s hs = Ok s' -> alive s m -> ~ In m (listed s) -> alive s' m /\ ~ In m (listed s').
Proof.
  induction hs as [|[o h] hs IH]; intros s s' m H A N; cbn [life] in H; [injection H as <-; auto|]. step H. rename a into s1.
  assert (L : (m < length (ml_heap s))%nat) by now apply alive_range.
  assert (K : alive s1 m /\ ~ In m (listed s1)).
  { apply every_kind in E. destruct E as [h F|h F|diff F|st out err F|b S R M V O].
    - destruct F as (_ & _ & M & _ & V & _). unfold listed in *. rewrite M. split; [now apply V|exact N].
    - destruct F as [_ _ _ (k & _ & V & [M|[M _]])]; (split; [apply V; now left|]); [|now rewrite M]. unfold listed. rewrite M, in_seq. lia.
    - destruct F as [_ _ _ (k & _ & V & [M|[M _]])]; (split; [apply V; left; auto|]); unfold listed; rewrite M; [rewrite in_seq; lia|auto].
    - destruct F as [_ _ _ (k & _ & V & [M|[M _]])]; (split; [apply V; left; auto|]); unfold listed; rewrite M; [rewrite in_seq; lia|auto].
    - unfold listed in *. rewrite M. split; [now apply V|exact N]. }
  apply (IH _ _ _ H); apply K.
Qed.
Print Assumptions C85_leaked_for_ever.
Lemma nodup_join {A} (a b : list A) : NoDup a -> NoDup b -> (forall x, In x a -> ~ In x b) -> NoDup (a ++ b).
Proof.
  induction 1 as [|x a N F IH]; intros B D; cbn [app]; [exact B|]. constructor; [|apply IH; [exact B|intros y I; apply D; now right]].
  intros I. apply in_app_or in I as [I|I]; [contradiction|]. apply (D x); [now left|exact I].
Qed.
(** However often a diff is opened: every model of every opening lives, and the list shows those of the last. *)
Theorem C85_memory_grows :
  forall o diff p ms support i n, (forall l, Permutation (os_sort o l) l) -> parse (os_sort o) (split_lines diff) = Ok p -> po_models p = Some ms ->
  exists s l, life (new_mlist support) ((o, HInfo i) :: repeat (o, HParseAndOpen diff) (S n)) = Ok s /\ model_count s = Z.of_nat (length ms) /\
    NoDup l /\ length l = (S n * length ms)%nat /\ Forall (alive s) l.
Proof.
  intros o diff p ms support i n HP EP EM. cbn [life occur bind]. set (s0 := slot_kompare_info (new_mlist support) i).
  assert (G : forall n s j, ml_info s = Some j -> exists s' l j', life s (repeat (o, HParseAndOpen diff) n) = Ok s' /\ ml_info s' = Some j' /\ (0 < n -> model_count s' = Z.of_nat (length ms))%nat /\
     NoDup l /\ length l = (n * length ms)%nat /\ Forall (alive s') l /\ Forall (fun m => length (ml_heap s) <= m)%nat l).
  { clear n. induction n as [|n IH]; intros s j I.
    - exists s, [], j. split; [reflexivity|]. split; [exact I|]. split; [lia|]. split; [constructor|]. split; [reflexivity|]. split; constructor.
    - destruct (parse_and_open_ok o s diff p ms j (conj HP (conj EP EM)) I) as (s1 & E1 & _ & _ & H1 & I1 & _).
      pose proof (opens_parse _ _ _ _ _ E1) as P1. cbn [repeat life occur]. rewrite E1. cbn [bind fst].
      destruct (IH s1 _ I1) as (s' & l & j' & E & I' & C & N & L & A & R).
      pose proof P1 as [_ _ _ (k & LH & V & M)].
      assert (K : ml_models s1 = Some (seq (length (ml_heap s)) k) /\ k = length ms).
      { destruct H1 as (l1 & M1 & L1 & _). destruct M as [M|[M M2]].
        - split; [exact M|]. rewrite M in M1. injection M1 as <-. now rewrite seq_length in L1.
        - unfold listed in M. rewrite M1 in M. subst. split; [exact M1|]. cbn in L1. exact L1. }
      destruct K as [K ->].
      exists s', (seq (length (ml_heap s)) (length ms) ++ l), j'. split; [exact E|]. split; [exact I'|]. split; [|split; [|split; [|split]]].
      + intros _. destruct n as [|n]; [|apply C; lia]. cbn in E. injection E as <-. unfold model_count. rewrite K, seq_length. reflexivity.
      + apply nodup_join; [apply seq_NoDup|exact N|]. intros m I2 I3. apply in_seq in I2. rewrite Forall_forall in R. specialize (R m I3). lia.
      + rewrite app_length, seq_length, L. lia.
      + apply Forall_app. split; [|exact A]. apply Forall_forall. intros m Q. apply in_seq in Q.
        assert (A1 : alive s1 m) by (apply V; right; lia).
        destruct n as [|n]; [cbn in E; now injection E as <-|]. cbn [repeat life occur] in E. 
        destruct (parse_and_open_ok o s1 diff p ms _ (conj HP (conj EP EM)) I1) as (s2 & E2 & _). rewrite E2 in E. cbn [bind fst] in E.
        apply (C85_leaked_for_ever _ _ _ m E); pose proof (opens_parse _ _ _ _ _ E2) as [_ _ _ (k2 & LH2 & V2 & M2)].
        * apply V2. now left.
        * destruct M2 as [M2|[M2 _]]; [|now rewrite M2]. unfold listed. rewrite M2, in_seq. lia.
      + apply Forall_app. split; apply Forall_forall; intros m Q; [apply in_seq in Q; lia|]. rewrite Forall_forall in R. specialize (R m Q). lia. }
  destruct (G (S n) s0 i eq_refl) as (s & l & j & E & _ & C & N & L & A & _). exists s, l. split; [exact E|]. split; [apply C; lia|]. auto.
Qed.
Print Assumptions C85_memory_grows.
(** C85 is false of the code: the same diff of two files opened twice. *)
Definition twice : list (outside * happening) := [(world, HInfo default_info); (world, HParseAndOpen two_files); (world, HParseAndOpen two_files)].
Theorem C85_models_freed_refuted :
  exists hs s m, life (new_mlist true) hs = Ok s /\ model_count s = 2 /\ alive s m /\ ~ In m (listed s).
Proof.
  assert (R : match life (new_mlist true) twice with Ok s => (model_count s, listed s, match model_of s 0 with Ok _ => true | _ => false end) = (2, [2; 3]%nat, true) | _ => False end) by (vm_compute; reflexivity).
  destruct (life (new_mlist true) twice) as [s| |] eqn:E; [|destruct R..]. apply pair_equal_spec in R as [R R3]. apply pair_equal_spec in R as [R1 R2].
  exists twice, s, 0%nat. split; [exact E|]. clear E. split; [exact R1|]. split; [|rewrite R2; intros [Q|[Q|[]]]; discriminate Q]. unfold alive. destruct (model_of s 0) as [x| |]; try discriminate. eauto.
Qed.
Print Assumptions C85_models_freed_refuted.
(** A viewer that is told to write, moves and applies; and a list of two models. *)
Example C83_example :
  match life (new_mlist false) [(world, HInfo default_info); (world, HParseAndOpen two_files); (world, HReadWrite true); (world, HNextDifference); (world, HApply true)] with
  | Ok s => ml_rw s = true /\ model_count s = 2 /\ applied_count s = Ok 1 /\ ac_next (ml_act s) = true /\ ac_save (ml_act s) = false
  | _ => False end /\
  match life (new_mlist true) [(world, HInfo default_info); (world, HParseAndOpen two_files); (world, HActApply)] with
  | Ok s => ac_save (ml_act s) = true | _ => False end /\
  match life (new_mlist true) [(world, HInfo default_info); (world, HParseAndOpen two_files); (world, HActApply); (world, HReadWrite false)] with
  | Ok s => ml_rw s = false /\ ac_save (ml_act s) = false /\ has_unsaved_changes s = Ok true | _ => False end.
Proof. vm_compute. repeat split. Qed.
