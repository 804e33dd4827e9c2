(** C96, once more: when models() gives a list and when null. *)
From Coq Require Import String Permutation.
From Verif Require Import Base QtStr Lev Diff Parser Save Blend Info ModelList Life SpecList PKin.
Local Open Scope Z_scope.

(** The text that a happening reads as a diff, if any. *)
Definition text_read (o : outside) (s : mlist) (h : happening) : option str :=
  match h with
  | HOpenDiff (c :: file) => Some (os_read o (c :: file))
  | HParseAndOpen t | HParseOutput t | HFinished true _ t _ => Some t
  | HOpenAndBlend => option_map (fun i => os_read o (in_local_destination i)) (ml_info s)
  | HCompare =>
      match ml_info s with
      | None => None
      | Some i =>
          let a := in_local_source i in let b := in_local_destination i in
          match os_is_dir o a, os_is_dir o b with
          | true, true => None
          | true, false => Some (os_read o b)
          | false, true => Some (os_read o a)
          | false, false => match os_is_diff o a, os_is_diff o b with
                            | false, true => Some (os_read o b)
                            | true, false => Some (os_read o a)
                            | _, _ => None
                            end
          end
      end
  | _ => None
  end.
Definition there (s : mlist) : bool := match ml_models s with Some _ => true | None => false end.
Lemma there_pres s s' : pres s s' -> there s' = there s. Proof. intros (_ & M & _). unfold there. now rewrite M. Qed.
Lemma there_clear s : there (clear s) = there s. Proof. unfold there, clear. destruct (ml_models s) eqn:M; cbn; now rewrite ?M. Qed.
Lemma there_mode s : there (compare_mode s) = there s. Proof. exact (there_clear s). Qed.
Lemma there_output o s text s' b : parse_diff_output o s text = Ok (s', b) -> b = there s' /\ exists p, parse (os_sort o) (split_lines text) = Ok p /\ (there s' = false <-> po_models p = None).
Proof.
  unfold parse_diff_output. intros H. step H. step H. destruct (po_models a) as [ms|] eqn:PM; cbn [with_info with_models ml_models] in H.
  - step H. step H. step H. injection H as <- <-. apply there_pres in E1, E2 || (apply pres_first_model, there_pres in E1; apply pres_first, there_pres in E2).
    assert (T : there a2 = true). { rewrite E2, E1. destruct (po_malformed a); reflexivity. }
    split; [symmetry; exact T|]. exists a. split; [first [exact E|reflexivity]|]. change (there a2 = false <-> po_models a = None). rewrite T, PM. split; discriminate.
  - injection H as <- <-. split; [reflexivity|]. exists a. split; [first [exact E|reflexivity]|]. rewrite PM. split; reflexivity.
Qed.
Lemma there_show s s' : show s = Ok s' -> there s' = there s. Proof. unfold show. intros H. step H. now injection H as <-. Qed.
Lemma there_depth i : forall l s s', depth_and_applied i s l = Ok s' -> there s' = there s.
Proof. induction l as [|m l IH]; intros s s' H; cbn [depth_and_applied] in H; [now injection H as <-|]. step H. step H. apply IH in H. exact H. Qed.
Lemma there_blend_model s m t s' : blend_model s m t = Ok s' -> there s' = there s.
Proof. unfold blend_model. intros H. step H. step H. step H. apply pres_first, there_pres in H. apply pres_first_model, there_pres in E1. rewrite H, E1. reflexivity. Qed.
Lemma there_blend_dir o url : forall l s r s' b, blend_dir o url s l r = Ok (s', b) -> there s' = there s.
Proof. induction l as [|m l IH]; intros s r s' b H; cbn [blend_dir] in H; [now injection H as <- _|]. step H. step H. apply IH in H. apply there_blend_model in E0. congruence. Qed.
Lemma there_blend o s url s' b : blend_original o s url = Ok (s', b) -> there s' = there s.
Proof.
  unfold blend_original. intros H. destruct (os_is_dir o url); [step H; now apply there_blend_dir in H|]. destruct (os_is_file o url); [|now injection H as <- _].
  step H. step H. step H. injection H as <- _. now apply there_blend_model in E1.
Qed.
Definition answers (o : outside) (text : str) (s' : mlist) : Prop := exists p, parse (os_sort o) (split_lines text) = Ok p /\ (there s' = false <-> po_models p = None).
Lemma answers_same o t s s' : there s' = there s -> answers o t s -> answers o t s'.
Proof. intros E (p & P & A). exists p. rewrite E. auto. Qed.
Lemma there_open o s t s' b : parse_and_open o s t = Ok (s', b) -> answers o t s'.
Proof.
  unfold parse_and_open. intros H. step H. destruct a as [s1 ok]. apply there_output in E as [_ A]. destruct ok.
  - step H. step H. injection H as <- _. apply there_show in E0. apply pres_update, there_pres in E. eapply answers_same; [|exact A]. change (there a0 = there s1). congruence.
  - injection H as <- _. exact A.
Qed.
Lemma there_open_blend o s s' b : open_and_blend o s = Ok (s', b) -> exists i, ml_info s = Some i /\ answers o (os_read o (in_local_destination i)) s'.
Proof.
  unfold open_and_blend. intros H. step H. assert (IS : ml_info s = Some a). { unfold the_info, clear in E. destruct (ml_models s); cbn in E; (destruct (ml_info s); [congruence|discriminate]). }
  exists a. split; [exact IS|]. step H. destruct a0 as [s1 ok]. apply there_output in E0 as [_ A]. destruct ok; cbn [negb] in H; [|injection H as <- _; exact A].
  step H. step H. step H. step H. destruct a3 as [s2 ok]. apply there_depth in E2. apply there_blend in E3. destruct ok; cbn [negb] in H.
  - step H. step H. injection H as <- _. apply there_show in E5. apply pres_update, there_pres in E4. eapply answers_same; [|exact A]. congruence.
  - injection H as <- _. eapply answers_same; [|exact A]. change (there s2 = there s1). congruence.
Qed.
(** models() gives a list after reading a text exactly if the parser makes models of the text; everything else, clearing and starting diff included, leaves the
    list where it is, and null null. *)
Theorem C96_where_the_list_is :
  forall o s h s', occur o s h = Ok s' ->
  match text_read o s h with
  | Some text => exists p, parse (os_sort o) (split_lines text) = Ok p /\ (ml_models s' = None <-> po_models p = None)
  | None => ml_models s' = None <-> ml_models s = None
  end.
Proof.
  intros o s h s' H.
  assert (NT : forall s, there s = false <-> ml_models s = None) by (intros x; unfold there; destruct (ml_models x); split; congruence).
  enough (G : match text_read o s h with Some text => answers o text s' | None => there s' = there s end).
  { destruct (text_read o s h) as [t|]; [|rewrite <- !NT, G; tauto]. destruct G as (p & P & A). exists p. now rewrite <- NT. }
  destruct h; cbn [occur text_read] in *.
  - now apply pres_slot_next, there_pres in H.
  - now apply pres_slot_previous, there_pres in H.
  - now apply pres_slot_next_model, there_pres in H.
  - now apply pres_slot_previous_model, there_pres in H.
  - now apply pres_pair, there_pres in H.
  - now apply pres_single, there_pres in H.
  - now apply pres_apply, there_pres in H.
  - now apply pres_apply_all, there_pres in H.
  - now apply (pres_run LActApply), there_pres in H.
  - now apply (pres_run LActUnapply), there_pres in H.
  - now apply (pres_run (LActApplyAll b)), there_pres in H.
  - now apply (pres_run (LSave e)), there_pres in H.
  - step H. destruct a. injection H as <-. now apply pres_save, there_pres in E.
  - now apply (pres_run (LSaveAll envs)), there_pres in H.
  - now apply (pres_run (LReadWrite b)), there_pres in H.
  - injection H as <-. reflexivity.
  - injection H as <-. apply there_clear.
  - now apply there_show in H.
  - step H. destruct a as [s1 b]. injection H as <-. unfold compare in E. step E. unfold the_info in E0. destruct (ml_info s) as [i|]; [|discriminate E0]. injection E0 as ->.
    destruct (os_is_dir o (in_local_source a)), (os_is_dir o (in_local_destination a)); cbn [andb negb] in E.
    + injection E as <- _. exact (there_mode _).
    + apply there_open_blend in E as (i & I & A). cbn in I. injection I as <-. exact A.
    + apply there_open_blend in E as (i & I & A). cbn in I. injection I as <-. exact A.
    + destruct (os_is_diff o (in_local_source a)), (os_is_diff o (in_local_destination a)); cbn [andb negb] in E.
      * injection E as <- _. exact (there_mode _).
      * apply there_open_blend in E as (i & I & A). cbn in I. injection I as <-. exact A.
      * apply there_open_blend in E as (i & I & A). cbn in I. injection I as <-. exact A.
      * injection E as <- _. exact (there_mode _).
  - unfold refresh in H. step H. injection H as <-. apply there_mode.
  - unfold swap in H. step H. destruct (in_mode a); injection H as <-; try reflexivity; apply there_mode.
  - step H. destruct a as [s1 b]. injection H as <-. unfold open_diff in E. destruct file as [|c file]; [now injection E as <- _|]. now apply there_open in E.
  - step H. destruct a as [s1 b]. injection H as <-. now apply there_open in E.
  - step H. destruct a as [s1 b]. injection H as <-. apply there_open_blend in E as (i & -> & A). exact A.
  - step H. destruct a as [s1 b]. injection H as <-. now apply there_output in E as [_ A].
  - step H. destruct a as [s1 b]. injection H as <-. now apply there_blend in E.
  - unfold slot_diff_process_finished in H. destruct (negb (ml_process s)); [discriminate H|]. step H. injection H as <-. change (match (if success then Some out else None) with Some text => answers o text a | None => there a = there s end) || idtac. destruct success.
    + step E. destruct a0 as [s1 ok]. apply there_output in E0 as [_ A]. step E. injection E as <-. eapply answers_same; [|exact A].
      destruct ok; cbn [negb] in E0; [|injection E0 as <-; reflexivity]. step E0. step E0. step E0. apply there_show in E0. apply pres_update, there_pres in E2.
      change (there a0 = there s1). rewrite E0, E2. destruct (mode_eqb _ _); [now injection E1 as <-|]. step E1. destruct a3. injection E1 as <-. now apply there_blend in E3.
    + destruct st; injection E as <-; reflexivity.
  - step H. injection H as <-. reflexivity.
Qed.
Print Assumptions C96_where_the_list_is.
(** Two files are compared, then the list is cleared: the list is there and empty; after a text that is no diff it is null. *)
From Verif Require PropsTotal PropsWorld.
Example C96_list_example :
  match life (new_mlist true) PropsTotal.emptied with
  | Ok s => ml_models s = Some [] /\ find_model s (Some 0%nat) = Ok (-1) /\
      match occur PropsWorld.here s (HParseOutput (lit "no diff")) with Ok s' => ml_models s' = None | _ => False end
  | _ => False end.
Proof. vm_compute. auto. Qed.
