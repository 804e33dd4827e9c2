(** C100: what the Info of a list says. *)
From Coq Require Import String Permutation.
From Verif Require Import Base QtStr Diff Parser Save Blend Info ModelList Life SpecList SpecInfo PKin.
From Verif Require SpecUnified PropsWorkflow PropsRecreate.
Local Open Scope Z_scope.

Lemma said_pres s s' : pres s s' -> ml_info s' = ml_info s. Proof. now intros (I & _). Qed.
Lemma said_clear s : ml_info (clear s) = ml_info s. Proof. unfold clear. destruct (ml_models s); reflexivity. Qed.
Lemma said_mode s : ml_info (compare_mode s) = ml_info s. Proof. exact (said_clear s). Qed.
Lemma said_show s s' : show s = Ok s' -> ml_info s' = ml_info s. Proof. unfold show. intros H. step H. now injection H as <-. Qed.
Lemma said_depth i : forall l s s', depth_and_applied i s l = Ok s' -> ml_info s' = ml_info s.
Proof. induction l as [|m l IH]; intros s s' H; cbn [depth_and_applied] in H; [now injection H as <-|]. step H. step H. apply IH in H. exact H. Qed.
Lemma said_blend_model s m t s' : blend_model s m t = Ok s' -> ml_info s' = ml_info s.
Proof. unfold blend_model. intros H. step H. step H. step H. apply pres_first, said_pres in H. apply pres_first_model, said_pres in E1. rewrite H, E1. reflexivity. Qed.
Lemma said_blend_dir o url : forall l s r s' b, blend_dir o url s l r = Ok (s', b) -> ml_info s' = ml_info s.
Proof. induction l as [|m l IH]; intros s r s' b H; cbn [blend_dir] in H; [now injection H as <- _|]. step H. step H. apply IH in H. apply said_blend_model in E0. congruence. Qed.
Lemma said_blend o s url s' b : blend_original o s url = Ok (s', b) -> ml_info s' = ml_info s.
Proof.
  unfold blend_original. intros H. destruct (os_is_dir o url); [step H; now apply said_blend_dir in H|]. destruct (os_is_file o url); [|now injection H as <- _].
  step H. step H. step H. injection H as <- _. now apply said_blend_model in E1.
Qed.
(** The Info j after the text t has been read with the Info i. *)
Definition reads_text (o : outside) (t : str) (i j : info) : Prop := exists p, parse (os_sort o) (split_lines t) = Ok p /\ j = with_parsed i (po_generator p) (po_format p).
Definition after_text (o : outside) (t : str) (s s' : mlist) : Prop := exists i j, ml_info s = Some i /\ ml_info s' = Some j /\ reads_text o t i j.
Lemma said_output o s t s' b : parse_diff_output o s t = Ok (s', b) -> after_text o t s s'.
Proof.
  unfold parse_diff_output. intros H. step H. step H. assert (I : ml_info s = Some a0). { unfold the_info in E0. destruct (po_models a); cbn in E0; (destruct (ml_info s); [congruence|discriminate]). }
  exists a0, (with_parsed a0 (po_generator a) (po_format a)). split; [exact I|]. split; [|exists a; split; [first [exact E|reflexivity]|reflexivity]].
  destruct (po_models a) as [ms|] eqn:PM; cbn [with_info with_models ml_models] in H; [|now injection H as <- _].
  step H. step H. step H. injection H as <- _. apply pres_first_model, said_pres in E1. apply pres_first, said_pres in E2. change (ml_info a2 = Some (with_parsed a0 (po_generator a) (po_format a))). rewrite E2, E1. destruct (po_malformed a); reflexivity.
Qed.
Lemma after_same o t a b s s' : ml_info a = ml_info s -> ml_info b = ml_info s' -> after_text o t a b -> after_text o t s s'.
Proof. intros A B (i & j & I & J & R). exists i, j. rewrite <- A, <- B. auto. Qed.
Lemma said_open o s t s' b : parse_and_open o s t = Ok (s', b) -> after_text o t s s'.
Proof.
  unfold parse_and_open. intros H. step H. destruct a as [s1 ok]. apply said_output in E. destruct ok.
  - step H. step H. injection H as <- _. apply said_show in E1. apply pres_update, said_pres in E0. eapply after_same; [|..|exact E]; [exact (said_clear s)|]. change (ml_info s1 = ml_info a0). congruence.
  - injection H as <- _. eapply after_same; [|..|exact E]; [exact (said_clear s)|reflexivity].
Qed.
Lemma said_open_blend o s s' b : open_and_blend o s = Ok (s', b) -> exists i, ml_info s = Some i /\ after_text o (os_read o (in_local_destination i)) s s'.
Proof.
  unfold open_and_blend. intros H. step H. assert (IS : ml_info s = Some a). { unfold the_info in E. rewrite said_clear in E. destruct (ml_info s); [congruence|discriminate]. }
  exists a. split; [exact IS|]. step H. destruct a0 as [s1 ok]. apply said_output in E0. eapply after_same; [exact (said_clear s)|reflexivity|]. destruct ok; cbn [negb] in H; [|injection H as <- _; exact E0].
  step H. step H. step H. step H. destruct a3 as [s2 ok]. apply said_depth in E3. apply said_blend in E4. destruct ok; cbn [negb] in H.
  - step H. step H. injection H as <- _. apply said_show in E6. apply pres_update, said_pres in E5. eapply after_same; [reflexivity| |exact E0]. congruence.
  - injection H as <- _. eapply after_same; [reflexivity| |exact E0]. change (ml_info s1 = ml_info s2). congruence.
Qed.
(** * C100 *)
(** After anything that can happen but slotKompareInfo(), the Info says what it said, except: compare() sets the mode and exchanges the sides when the diff is
    the source; when a diff is read, whatever comes of it, the generator and the format are those of the text. *)
Theorem C100_what_the_info_says :
  forall o s h s' i, occur o s h = Ok s' -> ml_info s = Some i ->
  match h with
  | HInfo k => ml_info s' = Some k
  | _ =>
    exists j, ml_info s' = Some j /\
      in_diff_mode j = in_diff_mode i /\ in_depth j = in_depth i /\ in_applied j = in_applied i /\
      in_mode j = match h with HCompare => mode_of_compare o i | _ => in_mode i end /\
      (source_side j, destination_side j) = (if match h with HCompare => turns_round o i | _ => false end then (destination_side i, source_side i) else (source_side i, destination_side i)) /\
      match diff_read o i h with
      | Some t => exists p, parse (os_sort o) (split_lines t) = Ok p /\ in_generator j = Some (po_generator p) /\ in_format j = po_format p
      | None => in_generator j = in_generator i /\ in_format j = in_format i
      end
  end.
Proof.
  intros o s h s' i H I.
  assert (Same : ml_info s' = ml_info s -> exists j, ml_info s' = Some j /\ in_diff_mode j = in_diff_mode i /\ in_depth j = in_depth i /\ in_applied j = in_applied i /\ in_mode j = in_mode i /\
      (source_side j, destination_side j) = (source_side i, destination_side i) /\ in_generator j = in_generator i /\ in_format j = in_format i).
  { intros E. exists i. rewrite E. repeat split; auto. }
  assert (Read : forall t, after_text o t s s' -> exists j, ml_info s' = Some j /\ in_diff_mode j = in_diff_mode i /\ in_depth j = in_depth i /\ in_applied j = in_applied i /\ in_mode j = in_mode i /\
      (source_side j, destination_side j) = (source_side i, destination_side i) /\ exists p, parse (os_sort o) (split_lines t) = Ok p /\ in_generator j = Some (po_generator p) /\ in_format j = po_format p).
  { intros t (i' & j & I' & J & p & P & ->). rewrite I in I'. injection I' as <-. eexists. split; [exact J|]. repeat split. exists p. repeat split. exact P. }
  destruct h; cbn [occur diff_read] in *.
  - apply Same. now apply pres_slot_next, said_pres in H.
  - apply Same. now apply pres_slot_previous, said_pres in H.
  - apply Same. now apply pres_slot_next_model, said_pres in H.
  - apply Same. now apply pres_slot_previous_model, said_pres in H.
  - apply Same. now apply pres_pair, said_pres in H.
  - apply Same. now apply pres_single, said_pres in H.
  - apply Same. now apply pres_apply, said_pres in H.
  - apply Same. now apply pres_apply_all, said_pres in H.
  - apply Same. now apply (pres_run LActApply), said_pres in H.
  - apply Same. now apply (pres_run LActUnapply), said_pres in H.
  - apply Same. now apply (pres_run (LActApplyAll b)), said_pres in H.
  - apply Same. now apply (pres_run (LSave e)), said_pres in H.
  - apply Same. step H. destruct a. injection H as <-. now apply pres_save, said_pres in E.
  - apply Same. now apply (pres_run (LSaveAll envs)), said_pres in H.
  - apply Same. now apply (pres_run (LReadWrite b)), said_pres in H.
  - injection H as <-. reflexivity.
  - apply Same. injection H as <-. apply said_clear.
  - apply Same. now apply said_show in H.
  - clear Same Read. step H. destruct a as [s1 b]. injection H as <-. unfold compare in E. step E. unfold the_info in E0. rewrite I in E0. injection E0 as <-. unfold turns_round, mode_of_compare. cbn [fst].
    assert (Done : forall m, ml_info s1 = Some (with_mode i m) -> exists j, ml_info s1 = Some j /\ in_diff_mode j = in_diff_mode i /\ in_depth j = in_depth i /\ in_applied j = in_applied i /\ in_mode j = m /\
       (source_side j, destination_side j) = (source_side i, destination_side i) /\ in_generator j = in_generator i /\ in_format j = in_format i).
    { intros m M. eexists. split; [exact M|]. repeat split. }
    assert (Blend : forall k, open_and_blend o (with_info s (Some k)) = Ok (s1, b) -> exists j p, ml_info s1 = Some j /\ parse (os_sort o) (split_lines (os_read o (in_local_destination k))) = Ok p /\ j = with_parsed k (po_generator p) (po_format p)).
    { intros k Q. apply said_open_blend in Q as (i' & I' & (i2 & j & I2 & J & p & P & ->)). cbn in I', I2. injection I' as <-. injection I2 as <-. exists (with_parsed k (po_generator p) (po_format p)), p. auto. }
    destruct (os_is_dir o (in_local_source i)), (os_is_dir o (in_local_destination i)); cbn [andb negb] in E.
    + apply Done. injection E as <- _. exact (said_mode _).
    + apply Blend in E as (j & p & J & P & ->). eexists. split; [exact J|]. repeat split. exists p. repeat split. exact P.
    + apply Blend in E as (j & p & J & P & ->). eexists. split; [exact J|]. repeat split. exists p. repeat split. exact P.
    + destruct (os_is_diff o (in_local_source i)), (os_is_diff o (in_local_destination i)); cbn [andb negb Bool.eqb] in *.
      * apply Done. injection E as <- _. exact (said_mode _).
      * apply Blend in E as (j & p & J & P & ->). eexists. split; [exact J|]. repeat split. exists p. repeat split. exact P.
      * apply Blend in E as (j & p & J & P & ->). eexists. split; [exact J|]. repeat split. exists p. repeat split. exact P.
      * apply Done. injection E as <- _. exact (said_mode _).
  - apply Same. unfold refresh in H. step H. injection H as <-. apply said_mode.
  - apply Same. unfold swap in H. step H. destruct (in_mode a); injection H as <-; try reflexivity; apply said_mode.
  - step H. destruct a as [s1 b]. injection H as <-. unfold open_diff in E. destruct file as [|c file]; [apply Same; now injection E as <- _|]. apply Read. now apply said_open in E.
  - step H. destruct a as [s1 b]. injection H as <-. apply Read. now apply said_open in E.
  - step H. destruct a as [s1 b]. injection H as <-. apply said_open_blend in E as (i' & I' & A). rewrite I in I'. injection I' as <-. now apply Read.
  - step H. destruct a as [s1 b]. injection H as <-. apply Read. now apply said_output in E.
  - step H. destruct a as [s1 b]. injection H as <-. apply Same. now apply said_blend in E.
  - unfold slot_diff_process_finished in H. destruct (negb (ml_process s)); [discriminate H|]. step H. injection H as <-. destruct success.
    + apply Read. step E. destruct a0 as [s1 ok]. apply said_output in E0. step E. injection E as <-. eapply after_same; [reflexivity| |exact E0].
      destruct ok; cbn [negb] in E1; [|injection E1 as <-; reflexivity]. step E1. step E1. step E1. apply said_show in E1. apply pres_update, said_pres in E3.
      change (ml_info s1 = ml_info a0). rewrite E1, E3. destruct (mode_eqb _ _); [now injection E2 as <-|]. step E2. destruct a3. injection E2 as <-. now apply said_blend in E4.
    + apply Same. destruct st; injection E as <-; reflexivity.
  - step H. injection H as <-. now apply Same.
Qed.
Print Assumptions C100_what_the_info_says.
(** compare() a second time, with the same things on the disk, finds the sides in order and changes neither them nor the mode. *)
Theorem C100_compare_again :
  forall o s s1 s2 i i1 i2, occur o s HCompare = Ok s1 -> occur o s1 HCompare = Ok s2 -> ml_info s = Some i -> ml_info s1 = Some i1 -> ml_info s2 = Some i2 ->
  in_mode i2 = in_mode i1 /\ source_side i2 = source_side i1 /\ destination_side i2 = destination_side i1 /\
  (source_side i1 = source_side i /\ destination_side i1 = destination_side i \/ source_side i1 = destination_side i /\ destination_side i1 = source_side i).
Proof.
  intros o s s1 s2 i i1 i2 H1 H2 I I1 I2. pose proof (C100_what_the_info_says _ _ _ _ _ H1 I) as (j & J & _ & _ & _ & M & S & _). rewrite I1 in J. injection J as <-.
  pose proof (C100_what_the_info_says _ _ _ _ _ H2 I1) as (j & J & _ & _ & _ & M2 & S2 & _). rewrite I2 in J. injection J as <-.
  assert (L : in_local_source i1 = (if turns_round o i then in_local_destination i else in_local_source i) /\ in_local_destination i1 = (if turns_round o i then in_local_source i else in_local_destination i)).
  { destruct (turns_round o i); injection S as ? ? ? ? ? ?; auto. }
  destruct L as [L1 L2]. assert (Q : mode_of_compare o i1 = mode_of_compare o i /\ turns_round o i1 = false).
  { unfold turns_round, mode_of_compare in *. rewrite L1, L2. clear -o. destruct (os_is_dir o (in_local_source i)) eqn:A, (os_is_dir o (in_local_destination i)) eqn:B; cbn; rewrite ?A, ?B; auto.
    destruct (os_is_diff o (in_local_source i)) eqn:C, (os_is_diff o (in_local_destination i)) eqn:D; cbn; rewrite ?A, ?B, ?C, ?D; cbn; auto. }
  destruct Q as [Q1 Q2]. rewrite Q2 in S2. injection S2 as A1 A2 A3 A4 A5 A6. split; [now rewrite M2, Q1, M|]. unfold source_side, destination_side. rewrite A1, A2, A3, A4, A5, A6. split; [reflexivity|]. split; [reflexivity|].
  destruct (turns_round o i); [right|left]; injection S as -> -> -> -> -> ->; auto.
Qed.
Print Assumptions C100_compare_again.
(** A diff given as the source and the file as the destination: compare() exchanges them, blends, and records what the diff is. *)
Definition diff_first : outside :=
  mk_outside (fun l => l) (fun u => if str_eqb u (lit "/a.diff") then SpecUnified.doc_text PropsRecreate.canonical_doc else if str_eqb u (lit "/old") then concat PropsWorkflow.sample_old else []) (fun _ => false) (fun u => str_eqb u (lit "/old")) (fun _ => false) (fun u => str_eqb u (lit "/a.diff")) (fun d f => d ++ lit "/" ++ f).
Definition given : info := mk_info UnknownMode UnknownDiffMode UnknownFormat None (lit "/a.diff") (lit "/old") (lit "/a.diff") (lit "/old") None None 0 true.
Example C100_example :
  match occur diff_first (slot_kompare_info (new_mlist true) given) HCompare with
  | Ok s => match ml_info s with
            | Some j => in_mode j = BlendingFile /\ in_source j = lit "/old" /\ in_destination j = lit "/a.diff" /\ in_generator j = Some DiffDiff /\ in_format j = Unified /\ in_applied j = true /\ model_count s = 1
            | None => False end
  | _ => False end.
Proof. vm_compute. repeat split. Qed.
