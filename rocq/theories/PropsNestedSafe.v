(** C91, C92: where a save writes and when it is safe, whatever happens while it waits. *)
From Coq Require Import String.
From Verif Require PLevTable.
From Verif Require Import Base QtStr Diff Save Parser SpecUnified Blend Info ModelList Life World Rounds LifeWorld Nested SpecList PHistory PSave PModelState PropsRecreate PKin PFar PWorld PropsList PropsWorld PropsLife PropsLifeWorld PropsWorkflow PropsNested.
Local Open Scope Z_scope.

(** * The histories with which the properties are refuted, and the examples *)
Definition shown_and_changed : list event :=
  [Else here (HInfo two_urls); Else here HRefresh; Else here (HFinished true NormalExit (doc_text canonical_doc) []); Else here HActApply].
Definition change_while_saving : list event := shown_and_changed ++ [Ask good; Return good true; Else here (HApply true); Return good true].
(** A change that is made while a save waits is marked as saved when the save ends, though it is in no file: all jobs have succeeded, no save is
    under way, the selected model says that it has no unsaved changes, and yet the destination does not hold its text. *)
Theorem C90_change_while_saving_refuted :
  exists l m x t, passes (mk_loop (new_mlist true) disk []) change_while_saving = Ok l /\ lp_stack l = [] /\
    ml_sel (lp_list l) = Some m /\ model_of (lp_list l) m = Ok x /\ has_unsaved x = Ok false /\ text_to_save x = Ok t /\
    exists i, ml_info (lp_list l) = Some i /\ in_mode i = ComparingFiles /\ lp_files l (in_destination i) <> Some t.
Proof.
  assert (K : match passes (mk_loop (new_mlist true) disk []) change_while_saving with
    | Ok l => match lp_stack l, ml_sel (lp_list l), ml_info (lp_list l) with
       | [], Some m, Some i => match model_of (lp_list l) m with
          | Ok x => match has_unsaved x, text_to_save x, in_mode i, lp_files l (in_destination i) with
             | Ok false, Ok t, ComparingFiles, Some t' => negb (str_eqb t t') | _, _, _, _ => false end
          | _ => false end
       | _, _, _ => false end
    | _ => false end = true) by (vm_compute; reflexivity).
  destruct (passes (mk_loop (new_mlist true) disk []) change_while_saving) as [l| |]; try discriminate K. destruct (lp_stack l) eqn:S; try discriminate K. destruct (ml_sel (lp_list l)) as [m|] eqn:SE; try discriminate K.
  destruct (ml_info (lp_list l)) as [i|] eqn:I; try discriminate K. destruct (model_of (lp_list l) m) as [x| |] eqn:M; try discriminate K. destruct (has_unsaved x) as [[]| |] eqn:U; try discriminate K.
  destruct (text_to_save x) as [t| |] eqn:T; try discriminate K. destruct (in_mode i) eqn:MD; try discriminate K. destruct (lp_files l (in_destination i)) as [t'|] eqn:F; try discriminate K.
  exists l, m, x, t. repeat (split; [first [reflexivity|assumption]|]). exists i. split; [exact I|]. split; [exact MD|]. rewrite F. intros Q. injection Q as ->.
  assert (Z : str_eqb t t = true) by now apply PLevTable.str_eqb_ok. rewrite Z in K. discriminate.
Qed.
Print Assumptions C90_change_while_saving_refuted.

(** The hypotheses of C90_saves_the_beginning_partial hold in a save during which a difference is applied. *)
Definition saving_starts : res loop := passes (mk_loop (new_mlist true) disk []) (shown_and_changed).
Definition meanwhile : list event := [Return good true; Else here (HApply true)].
Example C90_saves_the_beginning_example :
  exists s f l0 l1 l2 m, saving_starts = Ok (mk_loop s f []) /\ asks s (Ask good) m /\ happens (mk_loop s f []) (Ask good) = Ok l0 /\ (0 < length (lp_stack l0))%nat /\
    passes l0 meanwhile = Ok l1 /\ (forall k, moment l0 meanwhile k -> (0 < length (lp_stack k))%nat) /\
    happens l1 (Return good true) = Ok l2 /\ (length (lp_stack l2) <= 0)%nat /\ lp_files l2 (lit "/new") <> f (lit "/new").
Proof.
  assert (K : match saving_starts with
    | Ok l => match lp_stack l, ml_sel (lp_list l), happens l (Ask good) with
       | [], Some _, Ok l0 => match passes l0 [Return good true], passes l0 meanwhile with
          | Ok la, Ok l1 => match happens l1 (Return good true) with
             | Ok l2 => (negb (Nat.eqb (length (lp_stack l0)) 0) && negb (Nat.eqb (length (lp_stack la)) 0) && negb (Nat.eqb (length (lp_stack l1)) 0) && Nat.eqb (length (lp_stack l2)) 0 &&
                 match lp_files l2 (lit "/new"), lp_files l (lit "/new") with Some a, Some b => negb (str_eqb a b) | _, _ => false end)%bool
             | _ => false end
          | _, _ => false end
       | _, _, _ => false end
    | _ => false end = true) by (vm_compute; reflexivity).
  destruct saving_starts as [[s f st]| |]; try discriminate K. cbn [lp_stack lp_list lp_files] in K. destruct st; try discriminate K. destruct (ml_sel s) as [m|] eqn:SE; try discriminate K.
  destruct (happens (mk_loop s f []) (Ask good)) as [l0| |] eqn:H0; try discriminate K. destruct (passes l0 [Return good true]) as [la| |] eqn:HA; try discriminate K.
  destruct (passes l0 meanwhile) as [l1| |] eqn:H1; try discriminate K. destruct (happens l1 (Return good true)) as [l2| |] eqn:H2; try discriminate K.
  apply andb_prop in K as [K K5]. apply andb_prop in K as [K K4]. apply andb_prop in K as [K K3]. apply andb_prop in K as [K1 K2].
  apply Bool.negb_true_iff, Nat.eqb_neq in K1, K2, K3. apply Nat.eqb_eq in K4.
  exists s, f, l0, l1, l2, m. split; [reflexivity|]. split; [exact SE|]. split; [assumption|]. split; [lia|]. split; [assumption|]. split; [|split; [assumption|split; [lia|]]].
  - intros k (p & q & E & P). destruct p as [|a [|b [|c p]]].
    + injection P as <-. lia.
    + injection E as <- _. rewrite HA in P. injection P as <-. lia.
    + injection E as <- <- _. change (passes l0 meanwhile = Ok k) in P. rewrite H1 in P. injection P as <-. lia.
    + discriminate E.
  - intros Q. rewrite Q in K5. destruct (f (lit "/new")) as [t|]; try discriminate K5. assert (Z : str_eqb t t = true) by now apply PLevTable.str_eqb_ok. rewrite Z in K5. discriminate.
Qed.

(** * C91: where a save writes *)
(** Whatever happens: a file that is not as it was is the destination that some info had at some moment, or lies in it when directories are compared. *)
Theorem C91_where_is_written_partial :
  forall s f vs l u, passes (mk_loop s f []) vs = Ok l -> lp_files l u <> f u ->
  exists k i, moment (mk_loop s f []) vs k /\ ml_info (lp_list k) = Some i /\
    match in_mode i with ComparingDirs => exists rest, u = in_destination i ++ rest | _ => u = in_destination i end.
Proof.
  intros s f vs l u H D. destruct (written_history _ _ _ _ H) as [_ W]. destruct (W u) as [A|(t & A & v & (k & w & M & (x & i & _ & _ & _ & X4 & X5 & X6 & _) & _ & _ & E & P) & C & V & _)]; [contradiction|].
  rewrite C in P. subst u. destruct (sv_dirs v) eqn:SD.
  - destruct P as [name P]. rewrite <- E in X5. destruct (X6 (eq_sym E)) as [rest R]. exists k, i. split; [exact M|]. split; [exact X4|]. destruct (in_mode i); try discriminate X5. exists (rest ++ name). now rewrite P, R, app_assoc.
  - destruct P as (k' & j & K & J & P). exists k', j. split; [exact K|]. split; [exact J|]. rewrite P. destruct (in_mode j); try reflexivity. exists []. now rewrite app_nil_r.
Qed.
Print Assumptions C91_where_is_written_partial.
(** If the places that are compared stay the same while saves are under way, only the destination is written. *)
Theorem C91_same_destination :
  forall s f vs l u d m, passes (mk_loop s f []) vs = Ok l ->
  (forall k i, moment (mk_loop s f []) vs k -> ml_info (lp_list k) = Some i -> in_destination i = d /\ in_mode i = m) ->
  lp_files l u <> f u -> match m with ComparingDirs => exists rest, u = d ++ rest | _ => u = d end.
Proof. intros s f vs l u d m H S D. destruct (C91_where_is_written_partial _ _ _ _ _ H D) as (k & i & K & I & R). destruct (S k i K I) as [<- <-]. exact R. Qed.
Print Assumptions C91_same_destination.
(** A save of the comparison with /new that goes to /other, because the user has begun to look at another pair of files meanwhile. *)
Definition other_urls : info := mk_info ComparingFiles DefaultDiffMode Unified None (lit "/old") (lit "/other") (lit "/old") (lit "/other") None None 0 true.
Definition other_while_saving : list event := shown_and_changed ++ [Ask good; Else here (HInfo other_urls); Return good true; Return good true].
Theorem C91_destination_changes_refuted :
  exists k l i, passes (mk_loop (new_mlist true) disk []) shown_and_changed = Ok k /\ ml_info (lp_list k) = Some i /\ in_mode i = ComparingFiles /\ in_destination i = lit "/new" /\
    passes (mk_loop (new_mlist true) disk []) other_while_saving = Ok l /\ lp_stack l = [] /\
    lp_files l (lit "/new") = disk (lit "/new") /\ lp_files l (lit "/other") <> disk (lit "/other").
Proof.
  assert (G : forall r1 r2 d, match r1, r2 with
    | Ok k, Ok l => match ml_info (lp_list k), lp_stack l with
        | Some i, [] => match in_mode i, lp_files l (lit "/other"), lp_files l (lit "/new"), d with
            | ComparingFiles, Some _, Some a, Some b => (str_eqb (in_destination i) (lit "/new") && str_eqb a b)%bool | _, _, _, _ => false end
        | _, _ => false end
    | _, _ => false end = true ->
    exists k l i, r1 = Ok k /\ ml_info (lp_list k) = Some i /\ in_mode i = ComparingFiles /\ in_destination i = lit "/new" /\ r2 = Ok l /\ lp_stack l = [] /\ lp_files l (lit "/new") = d /\ lp_files l (lit "/other") <> None).
  { intros r1 r2 d K. destruct r1 as [k| |]; try discriminate K. destruct r2 as [l| |]; try discriminate K.
    destruct (ml_info (lp_list k)) as [i|] eqn:I; try discriminate K. destruct (lp_stack l) eqn:S; try discriminate K. destruct (in_mode i) eqn:MD; try discriminate K.
    destruct (lp_files l (lit "/other")) as [o|] eqn:O; try discriminate K. destruct (lp_files l (lit "/new")) as [a|] eqn:A; try discriminate K. destruct d as [b|]; try discriminate K.
    apply andb_prop in K as [K1 K2]. apply PLevTable.str_eqb_ok in K1, K2. subst b. exists k, l, i. rewrite O, A. repeat (split; [first [reflexivity|assumption]|]). discriminate. }
  apply G. vm_compute. reflexivity.
Qed.
Print Assumptions C91_destination_changes_refuted.

(** * C92: saving is safe *)
(** The info is never taken away. *)
Definition keeps_info (s s' : mlist) : Prop := ml_info s <> None -> ml_info s' <> None.
Lemma keeps_same s s' : ml_info s' = ml_info s -> keeps_info s s'. Proof. unfold keeps_info. congruence. Qed.
Lemma keeps_trans a b c : keeps_info a b -> keeps_info b c -> keeps_info a c. Proof. unfold keeps_info. auto. Qed.
Lemma keeps_set s i s' : ml_info s' = Some i -> keeps_info s s'. Proof. unfold keeps_info. congruence. Qed.
Lemma keeps_pres s s' : pres s s' -> keeps_info s s'. Proof. intros P. apply keeps_same, P. Qed.
Lemma parse_keeps o s diff s' b : parse_diff_output o s diff = Ok (s', b) -> ml_info s' <> None.
Proof.
  unfold parse_diff_output. intros H. step H. step H. cbn [with_info ml_models] in H. destruct (po_models a) as [ms|]; cbn [with_models with_info ml_models] in H.
  - step H. step H. step H. injection H as <- _. pose proof (proj1 (pres_first _ _ E2)) as I2. pose proof (proj1 (pres_first_model _ _ E1)) as I1. cbn [emit ml_info]. rewrite I2, I1. cbn. destruct (po_malformed a); cbn; discriminate.
  - injection H as <- _. cbn. discriminate.
Qed.
Lemma blend_model_keeps s m text s' : blend_model s m text = Ok s' -> ml_info s' = ml_info s.
Proof. unfold blend_model. intros H. step H. step H. step H. rewrite (proj1 (pres_first _ _ H)), (proj1 (pres_first_model _ _ E1)). reflexivity. Qed.
Lemma blend_dir_keeps o url l : forall s b s' b', blend_dir o url s l b = Ok (s', b') -> ml_info s' = ml_info s.
Proof. induction l as [|m l IH]; intros s b s' b' H; cbn [blend_dir] in H; [injection H as <- _; reflexivity|]. step H. step H. rewrite (IH _ _ _ _ H). eapply blend_model_keeps. exact E0. Qed.
Lemma blend_original_keeps o s url s' b : blend_original o s url = Ok (s', b) -> ml_info s' = ml_info s.
Proof.
  unfold blend_original. intros H. destruct (os_is_dir o url); [step H; eapply blend_dir_keeps; exact H|]. destruct (os_is_file o url); [|injection H as <- _; reflexivity].
  step H. step H. step H. injection H as <- _. eapply blend_model_keeps. exact E1.
Qed.
Lemma show_keeps s s' : show s = Ok s' -> ml_info s' = ml_info s.
Proof. unfold show. intros H. step H. injection H as <-. reflexivity. Qed.
Lemma depth_keeps i l : forall s s', depth_and_applied i s l = Ok s' -> ml_info s' = ml_info s.
Proof. induction l as [|m l IH]; intros s s' H; cbn [depth_and_applied] in H; [injection H as <-; reflexivity|]. step H. step H. rewrite (IH _ _ H). reflexivity. Qed.
Lemma clear_keeps s : ml_info (clear s) = ml_info s. Proof. unfold clear. destruct (ml_models s); reflexivity. Qed.
Lemma compare_mode_keeps s : ml_info (compare_mode s) = ml_info s. Proof. unfold compare_mode, clear. destruct (ml_models s); reflexivity. Qed.
Lemma open_keeps o s diff s' b : parse_and_open o s diff = Ok (s', b) -> ml_info s' <> None.
Proof.
  unfold parse_and_open. intros H. step H. destruct a as [s1 ok]. apply parse_keeps in E. destruct ok; [|injection H as <- _; exact E].
  step H. step H. injection H as <- _. cbn [emit ml_info]. rewrite (show_keeps _ _ E1), (proj1 (pres_update _ _ E0)). exact E.
Qed.
Lemma blend_keeps o s s' b : open_and_blend o s = Ok (s', b) -> ml_info s' <> None.
Proof.
  unfold open_and_blend. intros H. step H. step H. destruct a0 as [s1 ok]. apply parse_keeps in E0. destruct ok; cbn [negb] in H; [|injection H as <- _; exact E0].
  step H. step H. step H. step H. destruct a3 as [s2 ok]. assert (I : ml_info s2 <> None) by (rewrite (blend_original_keeps _ _ _ _ _ E4), (depth_keeps _ _ _ _ E3); exact E0).
  destruct ok; cbn [negb] in H; [|injection H as <- _; exact I]. step H. step H. injection H as <- _. rewrite (show_keeps _ _ E6), (proj1 (pres_update _ _ E5)). exact I.
Qed.
Lemma occur_keeps o s h s' : occur o s h = Ok s' -> keeps_info s s'.
Proof.
  destruct h; cbn [occur]; intros H.
  - apply keeps_pres. now apply pres_slot_next.
  - apply keeps_pres. now apply pres_slot_previous.
  - apply keeps_pres. now apply pres_slot_next_model.
  - apply keeps_pres. now apply pres_slot_previous_model.
  - apply keeps_pres. eapply pres_pair. exact H.
  - apply keeps_pres. eapply pres_single. exact H.
  - apply keeps_pres. eapply pres_apply. exact H.
  - apply keeps_pres. eapply pres_apply_all. exact H.
  - unfold slot_action_apply in H. step H. step H. step H. apply pres_update in H. apply pres_slot_next in E1. apply keeps_pres. eapply pres_trans; [|eapply pres_trans; [exact E1|exact H]].
    destruct (d_applied a); [injection E0 as <-; apply pres_refl|eapply pres_apply; exact E0].
  - unfold slot_action_unapply in H. step H. step H. step H. apply pres_update in H. apply pres_slot_previous in E1. apply keeps_pres. eapply pres_trans; [|eapply pres_trans; [exact E1|exact H]].
    destruct (d_applied a); [eapply pres_apply; exact E0|injection E0 as <-; apply pres_refl].
  - unfold slot_action_apply_all in H. step H. apply pres_update in H. apply keeps_pres. eapply pres_trans; [eapply pres_apply_all; exact E|exact H].
  - apply keeps_pres. eapply pres_slot_save. exact H.
  - step H. destruct a as [s1 b]. injection H as <-. apply keeps_pres. eapply pres_save. exact E.
  - step H. destruct a as [s1 b]. injection H as <-. unfold save_all_models in E. destruct (Z.eqb _ _); [injection E as <- _; now apply keeps_same|]. step E. apply keeps_pres. eapply pres_save_models. exact E.
  - unfold set_read_write in H. destruct (Bool.eqb _ _); [injection H as <-; now apply keeps_same|]. apply pres_update in H. apply keeps_same. exact (proj1 H).
  - injection H as <-. eapply keeps_set. reflexivity.
  - injection H as <-. apply keeps_same, clear_keeps.
  - apply keeps_same. now apply show_keeps.
  - step H. destruct a as [s1 b]. injection H as <-. unfold compare in E. step E. intros _.
    assert (C : forall i s' b, Ok (compare_mode (with_info s (Some i)), true) = Ok (s', b) -> ml_info s' <> None).
    { intros i s0 b0 Q. injection Q as <- _. rewrite compare_mode_keeps. discriminate. }
    destruct (_ && _)%bool; [eapply C; exact E|]. destruct (_ && _)%bool; [|destruct (_ && _)%bool; eapply blend_keeps; exact E].
    destruct (_ && _)%bool; [eapply blend_keeps; exact E|]. destruct (_ && _)%bool; [eapply blend_keeps; exact E|eapply C; exact E].
  - unfold refresh in H. step H. injection H as <-. apply keeps_same. apply compare_mode_keeps.
  - unfold swap in H. step H. destruct (in_mode a); injection H as <-; first [now apply keeps_same|apply keeps_same, compare_mode_keeps|eapply keeps_set; rewrite compare_mode_keeps; reflexivity].
  - step H. destruct a. injection H as <-. unfold open_diff in E. destruct file; [injection E as <- _; now apply keeps_same|]. intros _. eapply open_keeps. exact E.
  - step H. destruct a. injection H as <-. intros _. eapply open_keeps. exact E.
  - step H. destruct a. injection H as <-. intros _. eapply blend_keeps. exact E.
  - step H. destruct a. injection H as <-. intros _. eapply parse_keeps. exact E.
  - step H. destruct a. injection H as <-. apply keeps_same. eapply blend_original_keeps. exact E.
  - unfold slot_diff_process_finished in H. destruct (negb (ml_process s)); [discriminate|]. step H. injection H as <-. intros I. cbn [with_process ml_info]. destruct success.
    + step E. destruct a0 as [s1 ok]. apply parse_keeps in E0. step E. injection E as <-. cbn [emit ml_info]. destruct ok; cbn [negb] in E1; [|injection E1 as <-; exact E0]. step E1. step E1. step E1.
      rewrite (show_keeps _ _ E1), (proj1 (pres_update _ _ E3)). destruct (mode_eqb _ _); [injection E2 as <-; exact E0|]. step E2. destruct a3. injection E2 as <-. rewrite (blend_original_keeps _ _ _ _ _ E4). exact E0.
    + destruct st; injection E as <-; exact I.
  - step H. injection H as <-. now apply keeps_same.
Qed.

(** The difference pointers of every living model lead to differences. *)
Definition sound (x : dmodel) : Prop :=
  Forall (fun i => (i < length (dm_store x))%nat) (dm_diffs x) /\ Forall (fun h => Forall (fun i => (i < length (dm_store x))%nat) (h_diffs h)) (dm_hunks x).
Definition all_sound (s : mlist) : Prop := forall m x, model_of s m = Ok x -> sound x.
Lemma deref_in_range st i : (i < length st)%nat -> exists d, deref st i = Ok d.
Proof. intros L. unfold deref. destruct (nth_error st i) eqn:E; [eauto|]. apply nth_error_None in E. lia. Qed.
Lemma deref_all_in_range st l : Forall (fun i => (i < length st)%nat) l -> exists ds, deref_all st l = Ok ds.
Proof. induction 1 as [|i l L _ [ds IH]]; cbn [deref_all]; [eauto|]. destruct (deref_in_range _ _ L) as [d ->]. cbn [bind]. rewrite IH. cbn [bind]. eauto. Qed.
Lemma clear_in_range l : forall st, Forall (fun i => (i < length st)%nat) l -> exists st', clear_unsaved l st = Ok st'.
Proof.
  induction l as [|i l IH]; intros st F; cbn [clear_unsaved]; [eauto|]. inversion F as [|? ? L R]; subst. destruct (deref_in_range _ _ L) as [d ->]. cbn [bind]. apply IH. now rewrite update_length.
Qed.
Lemma attempt_total e s m x : model_of s m = Ok x -> sound x -> ml_info s <> None -> exists r, attempt e s m = Ok r.
Proof.
  intros M [D H] I. unfold attempt, has_unsaved. rewrite M. cbn [bind]. destruct (deref_all_in_range _ _ D) as [ds ->]. cbn [bind]. destruct (negb _); [eauto|]. destruct (negb (se_open e)); [eauto|].
  destruct (saved_lines_ok (dm_store x) (dm_hunks x)) as [ls ->]; [rewrite Forall_forall in H; intros h IN i J; specialize (H h IN); rewrite Forall_forall in H; auto|]. cbn [bind].
  destruct (negb (se_write e)); [eauto|]. destruct (negb (se_close e)); [eauto|]. unfold the_info. destruct (ml_info s); [|congruence]. cbn [bind]. destruct (mode_eqb _ _); eauto.
Qed.
Lemma go_on_total e all rest : forall l, ml_models (lp_list l) = Some all -> incl rest all -> Forall (alive (lp_list l)) all -> all_sound (lp_list l) -> ml_info (lp_list l) <> None -> exists l', go_on e all rest l = Ok l'.
Proof.
  induction rest as [|m rest IH]; intros l M N A S I; cbn [go_on]; [eauto|]. rewrite M. destruct (list_eq_dec Nat.eq_dec all all); [|congruence].
  assert (AM : alive (lp_list l) m) by (rewrite Forall_forall in A; apply A, N; now left). destruct AM as [x X]. destruct (attempt_total e _ _ _ X (S _ _ X) I) as [[s1 r] E]. rewrite E. cbn [bind].
  destruct r as [ret|[[text dirs] place]]; [|eauto]. destruct ret; [|eauto]. apply IH; cbn [lp_list].
  all: destruct (attempt_returns _ _ _ _ _ E) as [->| ->]; cbn [emit ml_models ml_info]; try assumption; try (intros z Z; apply N; now right).
Qed.
(** The saves under way: their models live. *)
Definition frame_ok (s : mlist) (v : saving) : Prop :=
  alive s (sv_model v) /\ ml_info s <> None /\ match sv_by v with ByAll all rest => incl rest all | _ => True end.
(** The events by which models are freed: the output of a process is read. *)
Definition frees (v : event) : Prop := match v with Else _ (HParseOutput _) => True | Else _ (HFinished true _ _ _) => True | _ => False end.
Definition by_ok (v : saving) : Prop := match sv_by v with ByAll all rest => incl rest all | _ => True end.
Lemma go_on_by e all rest : forall l l', go_on e all rest l = Ok l' -> incl rest all -> Forall by_ok (lp_stack l) -> Forall by_ok (lp_stack l').
Proof.
  induction rest as [|m rest IH]; intros l l' H N F; cbn [go_on] in H; [now injection H as <-|].
  destruct (match ml_models (lp_list l) with Some now => if list_eq_dec Nat.eq_dec now all then true else false | None => false end); [|discriminate]. step H.
  assert (N' : incl rest all) by (intros z Z; apply N; now right). destruct a as [s1 [ret|[[text dirs] place]]].
  - destruct ret; [eapply IH; [exact H|exact N'|exact F]|injection H as <-; exact F].
  - injection H as <-. cbn. constructor; [exact N'|exact F].
Qed.
Lemma ended_by e by_ ret l l' : ended e by_ ret l = Ok l' -> match by_ with ByAll all rest => incl rest all | _ => True end -> Forall by_ok (lp_stack l) -> Forall by_ok (lp_stack l').
Proof. destruct by_; cbn [ended]; intros H N F; [now injection H as <-|now injection H as <-|]. destruct ret; [eapply go_on_by; eauto|now injection H as <-]. Qed.
Lemma start_by e by_ m l l' : start e by_ m l = Ok l' -> match by_ with ByAll all rest => incl rest all | _ => True end -> Forall by_ok (lp_stack l) -> Forall by_ok (lp_stack l').
Proof.
  unfold start. intros H N F. step H. destruct a as [s1 [ret|[[text dirs] place]]]; [eapply ended_by; [exact H|exact N|exact F]|]. injection H as <-. constructor; [exact N|exact F].
Qed.
Lemma happens_by l v l' : happens l v = Ok l' -> Forall by_ok (lp_stack l) -> Forall by_ok (lp_stack l').
Proof.
  destruct v as [e|e m|e|e ok|o h]; cbn [happens]; intros H F.
  - destruct (ml_sel (lp_list l)); [|now injection H as <-]. eapply start_by; [exact H|exact I|exact F].
  - eapply start_by; [exact H|exact I|exact F].
  - destruct (Z.eqb _ _); [now injection H as <-|]. step H. eapply go_on_by; [exact H|apply incl_refl|exact F].
  - unfold returned in H. destruct (lp_stack l) as [|v r] eqn:S; [injection H as <-; now rewrite S|]. inversion F as [|? ? V R]; subst.
    assert (B : forall l', begin_copy v r l = Ok l' -> Forall by_ok (lp_stack l')) by (intros k Q; unfold begin_copy in Q; step Q; injection Q as <-; constructor; [exact V|exact R]).
    destruct (sv_stage v).
    + destruct (_ && _)%bool; [injection H as <-; constructor; [exact V|exact R]|auto].
    + destruct ok; [auto|]. eapply ended_by; [exact H|exact V|exact R].
    + destruct ok; [step H; step H; eapply ended_by; [exact H|exact V|exact R]|eapply ended_by; [exact H|exact V|exact R]].
  - destruct h; try (injection H as <-; exact F); step H; injection H as <-; exact F.
Qed.
Lemma alive_like s s' m : like s s' -> alive s m <-> alive s' m.
Proof. intros (H & _). unfold alive, model_of. rewrite H. tauto. Qed.
Lemma happens_list l v l' : happens l v = Ok l' ->
  (exists o h, v = Else o h /\ occur (outside_on o (lp_files l)) (lp_list l) h = Ok (lp_list l')) \/
  (ml_models (lp_list l') = ml_models (lp_list l) /\ ml_info (lp_list l') = ml_info (lp_list l) /\ forall m, alive (lp_list l) m <-> alive (lp_list l') m).
Proof.
  assert (L : forall s s', like s s' -> ml_models s' = ml_models s /\ ml_info s' = ml_info s /\ forall m, alive s m <-> alive s' m).
  { intros s s' Q. split; [apply Q|]. split; [apply Q|]. intros m. now apply alive_like. }
  destruct v as [e|e m|e|e ok|o h]; cbn [happens]; intros H.
  - right. destruct (ml_sel (lp_list l)); [|injection H as <-; apply L, like_refl]. apply start_ok in H. now apply L.
  - right. apply start_ok in H. now apply L.
  - right. destruct (Z.eqb _ _); [injection H as <-; apply L, like_refl|]. step H. apply go_on_ok in H. now apply L.
  - right. unfold returned in H. destruct (lp_stack l) as [|v r]; [injection H as <-; apply L, like_refl|].
    assert (B : forall l', begin_copy v r l = Ok l' -> lp_list l' = lp_list l) by (intros k Q; unfold begin_copy in Q; step Q; injection Q as <-; reflexivity).
    destruct (sv_stage v).
    + destruct (_ && _)%bool; [injection H as <-; apply L, like_refl|]. apply B in H. rewrite H. apply L, like_refl.
    + destruct ok; [apply B in H; rewrite H; apply L, like_refl|]. apply ended_ok in H as (A & _). cbn [lp_list] in A. apply L. eapply like_trans; [apply like_emit|exact A].
    + destruct ok; [|apply ended_ok in H as (A & _); cbn [lp_list] in A; apply L; eapply like_trans; [apply like_emit|exact A]].
      step H. step H. apply ended_ok in H as (A & _). cbn [lp_list] in A. destruct (L _ _ A) as (A1 & A2 & A3). split; [exact A1|]. split; [exact A2|]. intros m. rewrite <- A3. eapply alive_put. exact E.
  - assert (K : (do s <- occur (outside_on o (lp_files l)) (lp_list l) h; Ok (mk_loop s (lp_files l) (lp_stack l))) = Ok l' -> exists o' h', Else o h = Else o' h' /\ occur (outside_on o' (lp_files l)) (lp_list l) h' = Ok (lp_list l'))
      by (intros Q; step Q; injection Q as <-; exists o, h; split; [reflexivity|exact E]).
    destruct h; try (left; apply K; exact H); right; injection H as <-; apply L, like_refl.
Qed.
Lemma happens_known l v l' : happens l v = Ok l' -> known (lp_list l) -> known (lp_list l').
Proof.
  intros H K. destruct (happens_list _ _ _ H) as [(o & h & -> & O)|(M & _ & A)]; [eapply step_invariant; eauto|]. destruct K as [N F]. unfold known, listed in *. rewrite M. split; [exact N|]. eapply Forall_impl; [|exact F]. intros m. apply A.
Qed.
Lemma happens_info l v l' : happens l v = Ok l' -> keeps_info (lp_list l) (lp_list l').
Proof. intros H. destruct (happens_list _ _ _ H) as [(o & h & -> & O)|(_ & I & _)]; [eapply occur_keeps; exact O|now apply keeps_same]. Qed.
Lemma happens_alive l v l' m : happens l v = Ok l' -> alive (lp_list l) m -> (frees v -> ~ In m (listed (lp_list l))) -> alive (lp_list l') m.
Proof.
  intros H A N. destruct (happens_list _ _ _ H) as [(o & h & -> & O)|(_ & _ & Q)]; [|now apply Q]. destruct (nth_error (ml_heap (lp_list l')) m) as [[x|]|] eqn:E; [exists x; unfold model_of; now rewrite E|..].
  all: exfalso; assert (D : ~ alive (lp_list l') m) by (intros [x X]; unfold model_of in X; rewrite E in X; discriminate).
  all: apply (C85_what_is_freed _ _ _ _ _ O A) in D as [D1 [[diff ->]|(st & out & err & ->)]]; apply N; [exact I|exact D1|exact I|exact D1].
Qed.
(** A history in which no model of a save that is under way is freed: when the output of a process is read, the model is not in the list. *)
Definition spares (l : loop) (vs : list event) : Prop :=
  forall past v future k w, vs = past ++ v :: future -> passes l past = Ok k -> In w (lp_stack k) -> frees v -> ~ In (sv_model w) (listed (lp_list k)).
Lemma spared support f : forall vs l, passes (mk_loop (new_mlist support) f []) vs = Ok l -> spares (mk_loop (new_mlist support) f []) vs ->
  known (lp_list l) /\ Forall by_ok (lp_stack l) /\ Forall (fun w => alive (lp_list l) (sv_model w) /\ ml_info (lp_list l) <> None) (lp_stack l).
Proof.
  induction vs as [|v vs IH] using rev_ind; intros l H S; [injection H as <-; cbn [lp_list lp_stack]; split; [apply new_invariant|split; constructor]|].
  apply last_event in H as (l1 & P & H). destruct (IH _ P) as (K & B & F); [intros past z future k w -> ; apply (S past z (future ++ [v])); now rewrite <- app_assoc|].
  split; [eapply happens_known; eauto|]. split; [eapply happens_by; eauto|].
  assert (F' : Forall (fun w => alive (lp_list l) (sv_model w) /\ ml_info (lp_list l) <> None) (lp_stack l1)).
  { rewrite Forall_forall in *. intros w W. destruct (F w W) as [A I]. split; [|eapply happens_info; eauto]. eapply happens_alive; [exact H|exact A|]. intros FR. eapply (S vs v []); eauto. }
  assert (U : forall w, under_way (lp_list l) w -> alive (lp_list l) (sv_model w) /\ ml_info (lp_list l) <> None) by (intros w (x & i & M & _ & _ & I & _); split; [exists x; exact M|congruence]).
  apply happens_moves in H. destruct H as [A _|w A _ U1|w st place r A A' _ _ _ _|w r A A' _].
  - now rewrite A.
  - rewrite A. constructor; [now apply U|exact F'].
  - rewrite A'. rewrite A in F'. inversion F' as [|? ? W R]; subst. constructor; [exact W|exact R].
  - rewrite A in F'. inversion F' as [|? ? W R]; subst. destruct A' as [->|(all & rest & z & _ & -> & Z)]; [exact R|]. constructor; [now apply U|exact R].
Qed.
Lemma ended_total e by_ ret l all0 : ml_models (lp_list l) = all0 -> match by_ with ByAll all rest => all0 = Some all /\ incl rest all /\ Forall (alive (lp_list l)) all /\ all_sound (lp_list l) /\ ml_info (lp_list l) <> None | _ => True end ->
  exists l', ended e by_ ret l = Ok l'.
Proof. intros M H. destruct by_; cbn [ended]; [eauto|eauto|]. destruct ret; [|eauto]. destruct H as (H1 & H2 & H3 & H4 & H5). apply go_on_total; auto. congruence. Qed.
(** A save that waits goes on without touching freed memory, whatever its job answers and whatever has happened, if
    no model of a save under way was freed, the models are in order, and (for a save of everything) the list is the one it goes through. *)
Theorem C92_saving_is_safe_partial :
  forall support f vs l e ok, passes (mk_loop (new_mlist support) f []) vs = Ok l -> spares (mk_loop (new_mlist support) f []) vs ->
  all_sound (lp_list l) ->
  match lp_stack l with mk_sv (ByAll all _) _ _ _ _ _ :: _ => ml_models (lp_list l) = Some all | _ => True end ->
  exists l', happens l (Return e ok) = Ok l'.
Proof.
  intros support f vs l e ok H S SO LI. destruct (spared _ _ _ _ H S) as ([ND AL] & B & F). cbn [happens]. unfold returned. destruct (lp_stack l) as [|v r] eqn:ST; [eauto|].
  inversion F as [|? ? [[x X] I] _]; subst. inversion B as [|? ? BV _]; subst. 
  assert (C : exists l', begin_copy v r l = Ok l').
  { unfold begin_copy. destruct (sv_dirs v); [rewrite X; cbn [bind]; eauto|]. unfold the_info. destruct (ml_info (lp_list l)); [|congruence]. cbn [bind]. eauto. }
  assert (EN : forall ret s fi, ml_models s = ml_models (lp_list l) -> ml_info s = ml_info (lp_list l) -> (forall m, alive (lp_list l) m -> alive s m) -> all_sound s -> exists l', ended e (sv_by v) ret (mk_loop s fi r) = Ok l').
  { intros ret s fi M I' A SS. eapply ended_total; [reflexivity|]. cbn [lp_list]. destruct v as [by_ m t d p g]. cbn [sv_by] in *. destruct by_ as [| |all rest]; try exact Logic.I. unfold listed in AL. rewrite LI in *. rewrite M, I'.
    split; [reflexivity|]. split; [exact BV|]. split; [eapply Forall_impl; [|exact AL]; exact A|]. split; [exact SS|exact I]. }
  destruct (sv_stage v).
  - destruct (_ && _)%bool; [eauto|exact C].
  - destruct ok; [exact C|]. apply EN; try reflexivity; auto.
  - destruct ok; [|apply EN; try reflexivity; auto]. rewrite X. cbn [bind]. destruct (clear_in_range (dm_diffs x) (dm_store x)) as [st CS]; [apply (SO _ _ X)|]. rewrite CS. cbn [bind].
    apply EN; try reflexivity.
    + intros m. eapply (proj1 (alive_put _ _ _ _ _ X)).
    + intros m y Y. destruct (Nat.eq_dec m (sv_model v)) as [->|D].
      * rewrite (model_of_put _ _ _ _ X) in Y. injection Y as <-. pose proof (SO _ _ X) as [Q1 Q2]. unfold sound. change (dm_store (with_store x st)) with st. change (dm_diffs (with_store x st)) with (dm_diffs x). change (dm_hunks (with_store x st)) with (dm_hunks x).
        replace (length st) with (length (dm_store x)); [split; assumption|]. eapply PList.Forall2_len. eapply clear_kin. exact CS.
      * apply (SO m). unfold model_of, put_model in *. cbn [with_heap ml_heap] in Y. rewrite nth_update_other in Y by congruence. exact Y.
Qed.
Print Assumptions C92_saving_is_safe_partial.
(** Otherwise it does: when the model was freed, the save that has copied its file uses it. *)
Theorem C92_freed_model_is_used :
  forall l v r e, lp_stack l = v :: r -> sv_stage v = Copying -> ~ alive (lp_list l) (sv_model v) -> exists why, happens l (Return e true) = UB why.
Proof.
  intros l v r e S G A. cbn [happens]. unfold returned. rewrite S, G. unfold alive, model_of in *. destruct (nth_error (ml_heap (lp_list l)) (sv_model v)) as [[x|]|]; [exfalso; eauto| |]; cbn [bind]; eauto.
Qed.
Print Assumptions C92_freed_model_is_used.
(** That happens: diff was started, a diff file is opened before it ends, a difference is applied and saved, and diff ends while the file is copied. *)
Definition two_files : str := concat (map (fun x => lit x ++ [NL]) ["--- a	1"; "+++ b	2"; "@@ -1,3 +1,3 @@"; " 1"; "-2"; "+x"; " 3"; "--- c	1"; "+++ d	2"; "@@ -1,3 +1,3 @@"; " 1"; "-2"; "+x"; " 3"]%string).
Definition ends_while_saving : list event :=
  [Else here (HInfo two_urls); Else here HRefresh; Else here (HParseAndOpen two_files); Else here (HApply true); Ask good; Return good true; Else here (HFinished true NormalExit two_files []); Return good true].
(** And also: everything is saved, and the list is refreshed while the first file is copied. *)
Definition refreshed_while_saving : list event :=
  [Else here (HInfo two_urls); Else here HRefresh; Else here (HFinished true NormalExit two_files []); Else here (HActApplyAll true); AskAll good; Return good true; Else here HRefresh; Return good true].
Theorem C92_saving_is_safe_refuted :
  (exists why, passes (mk_loop (new_mlist true) disk []) ends_while_saving = UB why) /\ (exists why, passes (mk_loop (new_mlist true) disk []) refreshed_while_saving = UB why).
Proof. split; eexists; vm_compute; reflexivity. Qed.
Print Assumptions C92_saving_is_safe_refuted.
(** The hypotheses of C92_saving_is_safe_partial hold for the last step of a save of everything during which things happen. *)
Definition applied_while_saving : list event :=
  [Else here (HInfo two_urls); Else here HRefresh; Else here (HFinished true NormalExit two_files []); Else here (HActApplyAll true); AskAll good; Return good true; Else here (HActApplyAll false); Else here HNextModel; Ask good].
Lemma in_split_cases (vs past future : list event) v : vs = past ++ v :: future -> exists n, past = firstn n vs /\ nth_error vs n = Some v /\ (n < length vs)%nat.
Proof. intros ->. exists (length past). rewrite firstn_app, firstn_all, Nat.sub_diag, firstn_O, app_nil_r, nth_error_app2, Nat.sub_diag by lia. rewrite app_length. cbn. repeat split. lia. Qed.
Example C92_example : exists l, passes (mk_loop (new_mlist true) disk []) applied_while_saving = Ok l /\ (length (lp_stack l) >= 1)%nat /\ spares (mk_loop (new_mlist true) disk []) applied_while_saving /\ all_sound (lp_list l) /\
  match lp_stack l with mk_sv (ByAll all _) _ _ _ _ _ :: _ => ml_models (lp_list l) = Some all | _ => True end.
Proof.
  assert (G : forall r, match r with Ok l => match lp_stack l with mk_sv (ByAll all (_ :: _)) _ _ _ _ _ :: _ => match ml_models (lp_list l) with Some l' => if list_eq_dec Nat.eq_dec l' all then true else false | None => false end | _ => false end &&
     forallb (fun o => match o with Some x => forallb (fun i => Nat.ltb i (length (dm_store x))) (dm_diffs x) && forallb (fun h => forallb (fun i => Nat.ltb i (length (dm_store x))) (h_diffs h)) (dm_hunks x) | None => true end) (ml_heap (lp_list l)) | _ => false end%bool = true ->
     exists l, r = Ok l /\ (length (lp_stack l) >= 1)%nat /\ all_sound (lp_list l) /\ match lp_stack l with mk_sv (ByAll all _) _ _ _ _ _ :: _ => ml_models (lp_list l) = Some all | _ => True end).
  { intros [l| |] K; try discriminate K. exists l. split; [reflexivity|]. apply andb_prop in K as [K1 K2]. destruct (lp_stack l) as [|[[| |all [|z rest]] m t d p g] r]; try discriminate K1. split; [cbn; lia|]. split.
    - intros i x X. unfold model_of in X. destruct (nth_error (ml_heap (lp_list l)) i) as [[y|]|] eqn:N; try discriminate X. injection X as ->. apply nth_error_In in N. rewrite forallb_forall in K2. specialize (K2 _ N). cbv beta iota in K2.
      apply andb_prop in K2 as [A B]. rewrite forallb_forall in A, B. split; apply Forall_forall; [intros j J; apply Nat.ltb_lt; auto|]. intros h H. apply Forall_forall. intros j J. specialize (B h H). rewrite forallb_forall in B. apply Nat.ltb_lt. auto.
    - destruct (ml_models (lp_list l)) as [l'|]; [|discriminate K1]. destruct (list_eq_dec Nat.eq_dec l' all); [congruence|discriminate K1]. }
  destruct (G (passes (mk_loop (new_mlist true) disk []) applied_while_saving)) as (l & A & B & C & D); [vm_compute; reflexivity|]. exists l. split; [exact A|]. split; [exact B|]. split; [|split; [exact C|exact D]].
  intros past v future k w E P I F. apply in_split_cases in E as (n & -> & N & L). do 2 (destruct n as [|n]; [cbn in N; injection N as <-; destruct F|]).
  destruct n as [|n].
  - assert (Z : match passes (mk_loop (new_mlist true) disk []) (firstn 2 applied_while_saving) with Ok k => lp_stack k = [] | _ => True end) by (vm_compute; reflexivity). rewrite P in Z. rewrite Z in I. destruct I.
  - do 6 (destruct n as [|n]; [cbn in N; injection N as <-; destruct F|]). cbn in L. lia.
Qed.
