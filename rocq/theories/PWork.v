(** C103: no call changes what a diff says. *)
From Coq Require Import String.
From Verif Require Import Base QtStr Diff Save Parser Paths SpecHistory Blend Info ModelList Life Reentrant SpecWork PSave PHistory PKin.
From Verif Require PList.
Local Open Scope Z_scope.

(** [st]: the marks are the same too. *)
Definition same (st : bool) (x y : dmodel) : Prop := same_diff x y /\ (st = true -> same_marks x y).
Lemma same_difference_refl d : same_difference d d. Proof. repeat split. Qed.
Lemma same_refl st x : same st x x.
Proof. split; [split; auto 10; intros i d N; exists d; auto using same_difference_refl|]. intros _ i d N. eauto. Qed.
Lemma same_trans st x y z : same st x y -> same st y z -> same st x z.
Proof.
  intros [[(A1 & A2 & A3 & A4 & A5 & A6) (T1 & T2 & T3 & T4) B C D] M] [[(A1' & A2' & A3' & A4' & A5' & A6') (T1' & T2' & T3' & T4') B' C' D'] M']. split.
  - split; [repeat split; congruence|repeat split; congruence|congruence|congruence|].
    intros i d N. destruct (D i d N) as (e & E & (Q1 & Q2 & Q3 & Q4 & Q5 & Q6)). destruct (D' i e E) as (f & F & (R1 & R2 & R3 & R4 & R5 & R6)). exists f. split; [exact F|]. repeat split; congruence.
  - intros S i d N. destruct (M S i d N) as (e & E & Q). destruct (M' S i e E) as (f & F & R). exists f. split; [exact F|congruence].
Qed.
Lemma same_weak st x y : same true x y -> same st x y. Proof. intros [A B]. split; auto. Qed.
(** The store may change if it says the same. *)
Definition same_store (st : bool) (a b : list difference) : Prop :=
  forall i d, nth_error a i = Some d -> exists e, nth_error b i = Some e /\ same_difference d e /\ (st = true -> d_applied e = d_applied d).
Lemma store_refl st a : same_store st a a. Proof. intros i d N. exists d. split; [exact N|]. split; [apply same_difference_refl|auto]. Qed.
Lemma store_trans st a b c : same_store st a b -> same_store st b c -> same_store st a c.
Proof.
  intros A B i d N. destruct (A i d N) as (e & E & (Q1 & Q2 & Q3 & Q4 & Q5 & Q6) & M). destruct (B i e E) as (f & F & (R1 & R2 & R3 & R4 & R5 & R6) & M'). exists f. split; [exact F|]. split; [repeat split; congruence|].
  intros S. rewrite (M' S), (M S). reflexivity.
Qed.
Lemma store_update st a i d e : nth_error a i = Some d -> same_difference d e -> (st = true -> d_applied e = d_applied d) -> same_store st a (update a i e).
Proof.
  intros N S M j f F. destruct (Nat.eq_dec j i) as [->|NE].
  - rewrite N in F. injection F as <-. exists e. split; [|auto]. apply nth_update_same. eapply nth_some_lt; exact N.
  - exists f. rewrite nth_update_other by (intros Q; apply NE; congruence). split; [exact F|]. split; [apply same_difference_refl|auto].
Qed.
Lemma store_app st a b : same_store st a (a ++ b).
Proof. intros i d N. exists d. split; [rewrite nth_error_app1; [exact N|apply nth_error_Some; congruence]|]. split; [apply same_difference_refl|auto]. Qed.
Lemma same_with_store st x b : same_store st (dm_store x) b -> same st x (with_store x b).
Proof.
  intros S. split.
  - split; cbn; auto 10. intros i d N. destruct (S i d N) as (e & E & Q & _). eauto.
  - intros T i d N. destruct (S i d N) as (e & E & _ & Q). eauto.
Qed.
Lemma same_selection st x i s : same st x (with_selection x i s).
Proof. split; [split; cbn; auto 10; intros k d N; exists d; auto using same_difference_refl|]. intros _ k d N. eauto. Qed.
Lemma same_applied st x z : same st x (with_applied x z).
Proof. split; [split; cbn; auto 10; intros k d N; exists d; auto using same_difference_refl|]. intros _ k d N. eauto. Qed.

(** * Models *)
Lemma shift_same st l a b : forall s s', shift_tracking l a b s = Ok s' -> same_store st s s'.
Proof.
  induction l as [|i l IH]; intros s s' H; cbn [shift_tracking] in H; [injection H as <-; apply store_refl|]. step H. apply deref_inv in E. apply IH in H.
  destruct (Z.ltb a (d_dst _)); [|exact H]. eapply store_trans; [|exact H]. eapply store_update; [exact E|repeat split|reflexivity].
Qed.
Lemma clear_same st l : forall s s', clear_unsaved l s = Ok s' -> same_store st s s'.
Proof.
  induction l as [|i l IH]; intros s s' H; cbn [clear_unsaved] in H; [injection H as <-; apply store_refl|]. step H. apply deref_inv in E. apply IH in H.
  eapply store_trans; [|exact H]. eapply store_update; [exact E|repeat split|reflexivity].
Qed.
Lemma quiet_same d b : same_difference d (apply_quietly b d). Proof. unfold apply_quietly. destruct (Bool.eqb _ _); repeat split. Qed.
Lemma loop_same l b : forall t s s', apply_all_loop l b t s = Ok s' -> same_store false s s'.
Proof.
  induction l as [|i l IH]; intros t s s' H; cbn [apply_all_loop] in H; [injection H as <-; apply store_refl|]. step H. apply deref_inv in E.
  match type of H with (if ?c then _ else _) = _ => destruct c end; apply IH in H; (eapply store_trans; [|exact H]); (eapply store_update; [exact E| |discriminate]); [repeat split|].
  match goal with |- same_difference ?d (apply_quietly b ?e) => assert (X : same_difference d e) by (repeat split); pose proof (quiet_same e b) as Y end.
  destruct X as (Q1 & Q2 & Q3 & Q4 & Q5 & Q6), Y as (R1 & R2 & R3 & R4 & R5 & R6). repeat split; congruence.
Qed.
Lemma same_apply_all x b y : apply_all x b = Ok y -> same false x y.
Proof.
  unfold apply_all. intros H. step H. injection H as <-. eapply same_trans; [apply same_applied|]. apply same_with_store. eapply loop_same. exact E.
Qed.
Lemma same_apply_id x i b y : apply_id x i b = Ok y -> same false x y.
Proof.
  unfold apply_id. intros H. step H. apply deref_inv in E. destruct (Bool.eqb _ _); [injection H as <-; apply same_refl|]. cbv zeta in H.
  assert (A : same false x (with_store x (update (dm_store x) i (apply_quietly b a)))) by (apply same_with_store; eapply store_update; [exact E|apply quiet_same|discriminate]).
  destruct (d_connected _); [|injection H as <-; exact A]. unfold slot_difference_applied in H. step H. injection H as <-. eapply same_trans; [exact A|].
  apply same_with_store. eapply shift_same. exact E0.
Qed.
Lemma same_apply x b y : apply_difference x b = Ok y -> same false x y.
Proof.
  unfold apply_difference. intros H. destruct (dm_sel x); [|discriminate]. step H. destruct (Bool.eqb _ _); [injection H as <-; apply same_refl|]. cbv zeta in H.
  eapply same_trans; [apply same_applied|]. eapply same_apply_id. exact H.
Qed.
Lemma same_save e x o : save_destination e x = Ok o -> same true x (so_model o).
Proof.
  unfold save_destination. intros H. step H. destruct (negb a); [injection H as <-; apply same_refl|]. destruct (negb (se_open e)); [injection H as <-; apply same_refl|]. step H.
  destruct (negb (se_write e)); [injection H as <-; apply same_refl|]. destruct (negb (se_close e)); [injection H as <-; apply same_refl|].
  destruct (_ && _)%bool; [injection H as <-; apply same_refl|]. destruct (se_copy e); [|injection H as <-; apply same_refl]. step H. injection H as <-. cbn [so_model]. apply same_with_store. eapply clear_same. exact E1.
Qed.
Lemma blend_hunks_same : forall hs st src dst ls out st' src' dst' ls',
  blend_hunks st src dst ls hs = Ok (out, st', src', dst', ls') -> filter from_diff out = filter from_diff hs /\ exists more, st' = st ++ more.
Proof.
  induction hs as [|h hs IH]; intros st src dst ls out st' src' dst' ls' H; cbn [blend_hunks] in H.
  - injection H as <- <- <- <- <-. split; [reflexivity|]. exists []. now rewrite app_nil_r.
  - destruct (Z.ltb src (h_src h)).
    + destruct (blend_while _ _ _ _ _) as [[[s1 d1] l1] nd]. step H. step H. destruct a0 as [[[[o1 t1] q1] q2] q3]. injection H as <- <- <- <- <-. apply IH in E0 as [F (more & ->)].
      split; [cbn [app filter from_diff h_type]; destruct (from_diff h); now rewrite F|]. eexists. rewrite <- app_assoc. reflexivity.
    + step H. step H. destruct a0 as [[[[o1 t1] q1] q2] q3]. injection H as <- <- <- <- <-. apply IH in E0 as [F (more & ->)].
      split; [cbn [app filter]; destruct (from_diff h); now rewrite F|]. eauto.
Qed.
Lemma same_blend x text y : blend_file x text = Ok y -> same true x y.
Proof.
  unfold blend_file. intros H. step H. destruct a as [[[[hs st] src] dst] ls]. cbn [with_blended dm_store dm_hunks] in E. apply blend_hunks_same in E as [F (more & ->)].
  assert (A : same true x (with_contents (with_blended x true) hs (dm_diffs (with_blended x true)) (dm_store x ++ more))).
  { split; [split; cbn; auto 10|]; intros; pose proof (store_app true (dm_store x) more) as SA.
    - destruct (SA i d) as (e & Q1 & Q2 & _); eauto.
    - intros i d N. destruct (SA i d N) as (e & Q1 & _ & Q2). eauto. }
  destruct ls; [injection H as <-; exact A|]. cbn [alloc_diff] in H. injection H as <-. eapply same_trans; [exact A|].
  match goal with |- same true ?z _ => pose proof (store_app true (dm_store z)) as SA end. split; [split; cbn; auto 10|].
  - rewrite filter_app. cbn. apply app_nil_r.
  - intros i d N. destruct (SA [blend_rest (s :: ls) (new_diff src dst Unchanged)] i d N) as (e & Q1 & Q2 & _). eauto.
  - intros _ i d N. destruct (SA [blend_rest (s :: ls) (new_diff src dst Unchanged)] i d N) as (e & Q1 & _ & Q2). eauto.
Qed.
Lemma same_set x d : same true x (fst (set_selected_difference x d)).
Proof. unfold set_selected_difference. destruct (sel_eqb _ _); [apply same_refl|]. destruct d; [|apply same_refl]. destruct (find_id _ _); [apply same_selection|apply same_refl]. Qed.
Lemma same_next x y k : next_difference x = Ok (y, k) -> same true x y.
Proof. unfold next_difference. intros H. destruct (Z.ltb _ _); [step H|]; injection H as <- _; apply same_selection. Qed.
Lemma same_prev x y k : prev_difference x = Ok (y, k) -> same true x y.
Proof. unfold prev_difference. intros H. destruct (_ && _)%bool; [step H|]; injection H as <- _; apply same_selection. Qed.
Lemma same_first x y k : first_difference x = Ok (y, k) -> same true x y.
Proof. unfold first_difference. intros H. step H. injection H as <- _. apply same_selection. Qed.
Lemma same_last x y k : last_difference x = Ok (y, k) -> same true x y.
Proof. unfold last_difference. intros H. step H. injection H as <- _. apply same_selection. Qed.

(** The text of the diff. *)
Lemma same_deref a b l : same_store false a b -> forall ds, deref_all a l = Ok ds -> exists es, deref_all b l = Ok es /\ Forall2 same_difference ds es.
Proof.
  intros S. induction l as [|i l IH]; intros ds H; cbn [deref_all] in *; [injection H as <-; eauto using Forall2_nil|]. step H. step H. injection H as <-. apply deref_inv in E. destruct (S i a0 E) as (e & E1 & Q & _).
  destruct (IH a1 eq_refl) as (es & E2 & F). unfold deref. rewrite E1. cbn [bind]. rewrite E2. cbn [bind]. eauto using Forall2_cons.
Qed.
Lemma same_recreate_hunk h ds es : Forall2 same_difference ds es -> recreate_hunk_of h es = recreate_hunk_of h ds.
Proof.
  intros F. assert (A : map recreate_difference es = map recreate_difference ds).
  { induction F as [|d e l k (Q1 & Q2 & Q3 & Q4 & Q5 & Q6) _ IH]; [reflexivity|]. cbn [map]. rewrite IH. f_equal. unfold recreate_difference. now rewrite Q1, Q4, Q5. }
  assert (B : forall n, fold_left (fun n d => match d_type d with Unchanged | Change | Delete => n + slc d | Insert => n end) es n =
                        fold_left (fun n d => match d_type d with Unchanged | Change | Delete => n + slc d | Insert => n end) ds n).
  { clear A. induction F as [|d e l k (Q1 & Q2 & Q3 & Q4 & Q5 & Q6) _ IH]; intros n; [reflexivity|]. cbn [fold_left]. rewrite IH. unfold slc. now rewrite Q1, Q4. }
  assert (C : forall n, fold_left (fun n d => match d_type d with Unchanged | Change | Insert => n + dlc d | Delete => n end) es n =
                        fold_left (fun n d => match d_type d with Unchanged | Change | Insert => n + dlc d | Delete => n end) ds n).
  { clear A B. induction F as [|d e l k (Q1 & Q2 & Q3 & Q4 & Q5 & Q6) _ IH]; intros n; [reflexivity|]. cbn [fold_left]. rewrite IH. unfold dlc. now rewrite Q1, Q5. }
  unfold recreate_hunk_of. cbv zeta. now rewrite A, B, C.
Qed.
Lemma recreate_filter st hs : recreate_hunks st hs = recreate_hunks st (filter from_diff hs).
Proof.
  induction hs as [|h hs IH]; [reflexivity|]. cbn [recreate_hunks filter]. unfold from_diff at 1. destruct (h_type h) eqn:T.
  - cbn [recreate_hunks]. rewrite T, <- IH. reflexivity.
  - cbn [bind]. rewrite <- IH. destruct (recreate_hunks st hs); reflexivity.
Qed.
Lemma recreate_store a b hs t : same_store false a b -> recreate_hunks a hs = Ok t -> recreate_hunks b hs = Ok t.
Proof.
  intros S. revert t. induction hs as [|h hs IH]; intros t H; cbn [recreate_hunks] in *; [exact H|]. step H. step H. injection H as <-. rewrite (IH _ eq_refl).
  destruct (h_type h); [|injection E as <-; reflexivity]. unfold recreate_hunk in *. step E. injection E as <-. destruct (same_deref _ _ _ S _ E1) as (es & E2 & F). rewrite E2. cbn [bind]. now rewrite (same_recreate_hunk _ _ _ F).
Qed.
Lemma same_recreate x y t : same_diff x y -> recreate_diff x = Ok t -> recreate_diff y = Ok t.
Proof.
  intros [(A1 & A2 & A3 & A4 & A5 & A6) (T1 & T2 & T3 & T4) B C D] H. unfold recreate_diff in *. step H. injection H as <-.
  rewrite recreate_filter in E. rewrite recreate_filter, C. rewrite (recreate_store (dm_store x) (dm_store y) _ a); [|intros i d N; destruct (D i d N) as (e & Q1 & Q2); exists e; split; [exact Q1|split; [exact Q2|discriminate]]|exact E].
  cbn [bind]. unfold recreate_header. now rewrite A1, A2, T1, T2, T3, T4.
Qed.

(** * The list *)
Definition in_list (s : mlist) (m : nat) : Prop := exists l, ml_models s = Some l /\ In m l.
Definition held (st : bool) (m : nat) (s s' : mlist) : Prop :=
  (m < length (ml_heap s))%nat -> (m < length (ml_heap s'))%nat /\ (in_list s' m -> in_list s m) /\
  forall y, model_of s' m = Ok y -> exists x, model_of s m = Ok x /\ same st x y.
Lemma held_ext st m s s' : ml_heap s' = ml_heap s -> ml_models s' = ml_models s -> held st m s s'.
Proof. intros H M L. rewrite H. split; [exact L|]. split; [unfold in_list; now rewrite M|]. intros y E. exists y. split; [unfold model_of in *; now rewrite <- H|apply same_refl]. Qed.
Lemma held_refl st m s : held st m s s. Proof. now apply held_ext. Qed.
Lemma held_trans st m a b c : held st m a b -> held st m b c -> held st m a c.
Proof.
  intros P Q L. destruct (P L) as (L1 & I1 & H1). destruct (Q L1) as (L2 & I2 & H2). split; [exact L2|]. split; [auto|]. intros z Z. destruct (H2 z Z) as (y & Y & S2). destruct (H1 y Y) as (x & X & S1). exists x. split; [exact X|]. eapply same_trans; eassumption.
Qed.
Lemma held_weak st m s s' : held true m s s' -> held st m s s'.
Proof. intros P L. destruct (P L) as (A & B & C). split; [exact A|]. split; [exact B|]. intros y Y. destruct (C y Y) as (x & X & S). exists x. split; [exact X|now apply same_weak]. Qed.
Lemma held_put st m s i x y : model_of s i = Ok x -> same st x y -> held st m s (put_model s i y).
Proof.
  intros E S L. split; [cbn; rewrite update_length; exact L|]. split; [auto|]. intros z Z. destruct (Nat.eq_dec i m) as [<-|N].
  - rewrite (PList.model_put s i y x E) in Z. injection Z as <-. eauto.
  - rewrite PList.model_put_other in Z by exact N. exists z. split; [exact Z|apply same_refl].
Qed.
Lemma held_other st m s i y : i <> m -> held st m s (put_model s i y).
Proof.
  intros N L. split; [cbn; rewrite update_length; exact L|]. split; [auto|]. intros z Z. rewrite PList.model_put_other in Z by exact N. exists z. split; [exact Z|apply same_refl].
Qed.
Lemma held_of st m s s' : held true m s s' -> held st m s s'. Proof. apply held_weak. Qed.
Ltac he := first [apply held_refl | apply held_ext; reflexivity].
Section Held.
Context (st : bool) (m : nat).
Notation held := (held st m).
Lemma held_l a b c : ml_heap b = ml_heap a -> ml_models b = ml_models a -> held b c -> held a c.
Proof. intros H M. apply held_trans. now apply held_ext. Qed.
Lemma held_r a b c : held a b -> ml_heap c = ml_heap b -> ml_models c = ml_models b -> held a c.
Proof. intros P H M. eapply held_trans; [exact P|]. now apply held_ext. Qed.
Lemma held_update s s' : update_actions s = Ok s' -> held s s'.
Proof. unfold update_actions. intros H. destruct (ml_models s), (ml_sel s), (ml_diff s); repeat step H; injection H as <-; he. Qed.
Lemma held_put_sel s i x y d : model_of s i = Ok x -> same true x y -> held s (with_diff (put_model s i y) d).
Proof. intros E S. eapply held_r; [eapply held_put; [exact E|apply same_weak; exact S]|reflexivity..]. Qed.
Lemma held_first s s' : to_first_difference s = Ok s' -> held s s'.
Proof. unfold to_first_difference. intros H. step H. destruct a as [i x]. apply selected_inv in E as [_ E]. step H. destruct a as [y k]. injection H as <-. eapply held_put_sel; [exact E|]. eapply same_first. exact E0. Qed.
Lemma held_last s s' : to_last_difference s = Ok s' -> held s s'.
Proof. unfold to_last_difference. intros H. step H. destruct a as [i x]. apply selected_inv in E as [_ E]. step H. destruct a as [y k]. injection H as <-. eapply held_put_sel; [exact E|]. eapply same_last. exact E0. Qed.
Lemma held_first_model s s' : first_model s = Ok s' -> held s s'.
Proof. unfold first_model. intros H. step H. destruct a; [discriminate|]. injection H as <-. he. Qed.
Lemma held_last_model s s' : last_model s = Ok s' -> held s s'.
Proof. unfold last_model. intros H. step H. destruct (rev a); [discriminate|]. injection H as <-. he. Qed.
Lemma held_next_model s s' : next_model s = Ok s' -> held s s'.
Proof. unfold next_model. intros H. step H. destruct (Z.ltb _ _); [step H|]; injection H as <-; he. Qed.
Lemma held_prev_model s s' : prev_model s = Ok s' -> held s s'.
Proof. unfold prev_model. intros H. destruct (Z.ltb _ _); [step H; destruct (Z.ltb _ _); [step H|]|]; injection H as <-; he. Qed.
Lemma held_select s i d s' b : select_in s i d = Ok (s', b) -> held s s'.
Proof.
  unfold select_in. intros H. step H. destruct d as [[j k]|].
  - destruct (Nat.eqb i j); [|injection H as <- <-; he]. destruct (set_selected_difference a (Some k)) as [x ok] eqn:S. injection H as <- <-.
    eapply held_put; [exact E|]. apply same_weak. replace x with (fst (set_selected_difference a (Some k))) by now rewrite S. apply same_set.
  - destruct (set_selected_difference a None) as [x ok] eqn:S. injection H as <- <-.
    eapply held_put; [exact E|]. apply same_weak. replace x with (fst (set_selected_difference a None)) by now rewrite S. apply same_set.
Qed.
Lemma held_select_model s i s' b : set_selected_model s i = Ok (s', b) -> held s s'.
Proof.
  unfold set_selected_model. intros H. destruct (sel_eqb _ _); [step H; injection H as <- <-; eapply held_update; eassumption|]. step H. destruct (Z.ltb _ _); [injection H as <- <-; he|]. step H. injection H as <- <-.
  eapply held_l; [| |eapply held_update; eassumption]; reflexivity.
Qed.
Lemma held_blend_model s i text s' : blend_model s i text = Ok s' -> held s s'.
Proof.
  unfold blend_model. intros H. step H. step H. step H. eapply held_trans; [eapply held_put; [exact E|apply same_weak; eapply same_blend; exact E0]|].
  eapply held_trans; [eapply held_first_model; eassumption|eapply held_first; exact H].
Qed.
Lemma held_blend_dir o url : forall l s b s' b', blend_dir o url s l b = Ok (s', b') -> held s s'.
Proof.
  induction l as [|i l IH]; intros s b s' b' H; cbn [blend_dir] in H; [injection H as <- _; he|]. step H. cbv zeta in H. step H. eapply held_trans; [eapply held_blend_model; eassumption|eapply IH; exact H].
Qed.
Lemma held_blend o s url s' b : blend_original o s url = Ok (s', b) -> held s s'.
Proof.
  unfold blend_original. intros H. destruct (os_is_dir o url); [step H; eapply held_blend_dir; exact H|]. destruct (os_is_file o url); [|injection H as <- _; he].
  step H. step H. step H. injection H as <- _. eapply held_blend_model. eassumption.
Qed.
Lemma held_depth i : forall l s s', ~ In m l -> depth_and_applied i s l = Ok s' -> held s s'.
Proof.
  induction l as [|j l IH]; intros s s' N H; cbn [depth_and_applied] in H; [injection H as <-; he|]. step H. step H. cbn in N. eapply held_trans; [|eapply IH; [|exact H]; tauto]. apply held_other. intros Q. apply N. now left.
Qed.

(** * Calls, whatever the slots *)
Context (k : slots) (K : forall g s s', k g s = Ok s' -> held s s').
Lemma held_raise g s s' : raise k g s = Ok s' -> held s s'.
Proof. unfold raise. intros H. apply K in H. eapply held_l; [| |exact H]; reflexivity. Qed.
Lemma held_bar s s' : status_bar_k k s = Ok s' -> held s s'.
Proof. unfold status_bar_k. intros H. step H. step H. destruct a0 as [i x]. step H. eapply held_raise. exact H. Qed.
Lemma held_finish g s s' : (do s <- raise k g s; do s <- status_bar_k k s; update_actions s) = Ok s' -> held s s'.
Proof. intros H. step H. step H. eapply held_trans; [eapply held_raise; eassumption|]. eapply held_trans; [eapply held_bar; eassumption|eapply held_update; exact H]. Qed.
Lemma held_pair s i d s' : slot_selection_changed_k k s i d = Ok s' -> held s s'.
Proof.
  unfold slot_selection_changed_k. cbv zeta. intros H. step H. destruct i as [i|]; [|discriminate H]. step H. destruct a0 as [s1 b1]. cbn [fst] in H. step H. destruct a0 as [s2 b2].
  match type of H with bind ?w _ = _ => assert (W : forall z, w = Ok z -> held s2 z) end.
  { intros z Z. destruct b2.
    - destruct (ml_sel s2); [|discriminate Z]. step Z. destruct a0 as [s3 b3]. eapply held_trans; [eapply held_select; eassumption|]. destruct b3; [injection Z as <-; he|eapply held_first; exact Z].
    - step Z. eapply held_trans; [eapply held_first_model; eassumption|eapply held_first; exact Z]. }
  match type of H with bind ?w _ = _ => destruct w as [s3| |]; cbn [bind] in H; try discriminate H end.
  eapply held_trans; [|eapply held_trans; [apply W; reflexivity|eapply held_finish; exact H]].
  eapply held_trans; [|eapply held_select_model; eassumption]. eapply held_l; [| |eapply held_select; eassumption]; reflexivity.
Qed.
Lemma held_single s d s' : slot_difference_changed_k k s d = Ok s' -> held s s'.
Proof.
  unfold slot_difference_changed_k. cbv zeta. intros H. destruct (ml_sel _); [|discriminate H]. step H. destruct a as [s1 b1].
  match type of H with bind ?w _ = _ => assert (W : forall z, w = Ok z -> held s1 z) end.
  { intros z Z. destruct b1; [injection Z as <-; he|eapply held_first; exact Z]. }
  match type of H with bind ?w _ = _ => destruct w as [s2| |]; cbn [bind] in H; try discriminate H end.
  eapply held_trans; [|eapply held_trans; [apply W; reflexivity|eapply held_finish; exact H]]. eapply held_l; [| |eapply held_select; eassumption]; reflexivity.
Qed.
Lemma held_prev_file s s' : slot_previous_model_k k s = Ok s' -> held s s'.
Proof.
  unfold slot_previous_model_k. intros H. step H.
  match type of H with bind ?w _ = _ => assert (W : forall z, w = Ok z -> held a z) by (intros z Z; destruct (ml_sel a); [injection Z as <-; he|eapply held_first_model; exact Z]) end.
  match type of H with bind ?w _ = _ => destruct w as [s2| |]; cbn [bind] in H; try discriminate H end. step H.
  eapply held_trans; [eapply held_prev_model; eassumption|]. eapply held_trans; [apply W; reflexivity|]. eapply held_trans; [eapply held_first; eassumption|eapply held_finish; exact H].
Qed.
Lemma held_next_file s s' : slot_next_model_k k s = Ok s' -> held s s'.
Proof.
  unfold slot_next_model_k. intros H. step H.
  match type of H with bind ?w _ = _ => assert (W : forall z, w = Ok z -> held a z) by (intros z Z; destruct (ml_sel a); [injection Z as <-; he|eapply held_last_model; exact Z]) end.
  match type of H with bind ?w _ = _ => destruct w as [s2| |]; cbn [bind] in H; try discriminate H end. step H.
  eapply held_trans; [eapply held_next_model; eassumption|]. eapply held_trans; [apply W; reflexivity|]. eapply held_trans; [eapply held_first; eassumption|eapply held_finish; exact H].
Qed.
Lemma held_previous s s' : slot_previous_difference_k k s = Ok s' -> held s s'.
Proof.
  unfold slot_previous_difference_k. intros H. step H. destruct a as [i x]. apply selected_inv in E as [_ E]. step H. destruct a as [y j]. cbv zeta in H.
  assert (P : held s (put_model s i y)) by (eapply held_put; [exact E|apply same_weak; eapply same_prev; exact E0]). eapply held_trans; [exact P|]. destruct j as [j|].
  - eapply held_l; [| |eapply held_finish; exact H]; reflexivity.
  - step H. eapply held_trans; [eapply held_l; [| |eapply held_prev_model; eassumption]; reflexivity|]. destruct (ml_sel a).
    + step H. eapply held_trans; [eapply held_last; eassumption|eapply held_finish; exact H].
    + step H. step H. eapply held_trans; [eapply held_first_model; eassumption|]. eapply held_trans; [eapply held_first; eassumption|eapply held_finish; exact H].
Qed.
Lemma held_next s s' : slot_next_difference_k k s = Ok s' -> held s s'.
Proof.
  unfold slot_next_difference_k. intros H. step H. destruct a as [i x]. apply selected_inv in E as [_ E]. step H. destruct a as [y j]. cbv zeta in H.
  assert (P : held s (put_model s i y)) by (eapply held_put; [exact E|apply same_weak; eapply same_next; exact E0]). eapply held_trans; [exact P|]. destruct j as [j|].
  - eapply held_l; [| |eapply held_finish; exact H]; reflexivity.
  - step H. eapply held_trans; [eapply held_l; [| |eapply held_next_model; eassumption]; reflexivity|]. destruct (ml_sel a).
    + step H. eapply held_trans; [eapply held_first; eassumption|eapply held_finish; exact H].
    + step H. step H. eapply held_trans; [eapply held_last_model; eassumption|]. eapply held_trans; [eapply held_last; eassumption|eapply held_finish; exact H].
Qed.
Lemma held_apply s b s' : st = false -> slot_apply_difference_k k s b = Ok s' -> held s s'.
Proof.
  intros ST H. unfold slot_apply_difference_k in H. step H. destruct a as [i x]. apply selected_inv in E as [_ E]. step H. eapply held_trans; [|eapply held_raise; exact H]. eapply held_put; [exact E|]. rewrite ST. eapply same_apply. exact E0.
Qed.
Lemma held_apply_all s b s' : st = false -> slot_apply_all_k k s b = Ok s' -> held s s'.
Proof.
  intros ST H. unfold slot_apply_all_k in H. step H. destruct a as [i x]. apply selected_inv in E as [_ E]. step H. eapply held_trans; [|eapply held_raise; exact H]. eapply held_put; [exact E|]. rewrite ST. eapply same_apply_all. exact E0.
Qed.
Lemma held_save e s i s' b : save_model_k k e s i = Ok (s', b) -> held s s'.
Proof.
  unfold save_model_k. intros H. step H. step H. cbv zeta in H. eapply held_trans; [eapply held_put; [exact E|apply same_weak; eapply same_save; exact E0]|].
  destruct (so_error a0); cbn [bind] in H; [step H; injection H as <- _; eapply held_raise; eassumption|injection H as <- _; he].
Qed.
Lemma held_slot_save e s s' : slot_save_k k e s = Ok s' -> held s s'.
Proof.
  unfold slot_save_k. intros H. destruct (ml_sel s); [|injection H as <-; he]. step H. destruct a as [s1 b]. cbv zeta in H. eapply held_trans; [eapply held_save; eassumption|]. apply held_raise in H.
  eapply held_l; [| |exact H]; destruct (ml_has_save s1); reflexivity.
Qed.
Lemma held_saves envs all : forall l j s s' b, save_models_k k envs j s all l = Ok (s', b) -> held s s'.
Proof.
  induction l as [|i l IH]; intros j s s' b H; cbn [save_models_k] in H; [injection H as <- _; he|]. step H. destruct a as [s1 b1]. eapply held_trans; [eapply held_save; eassumption|].
  destruct b1; [|injection H as <- _; he]. destruct (same_list all s1); [|discriminate H]. eapply IH. exact H.
Qed.
Lemma held_save_all envs s s' b : save_all_models_k k envs s = Ok (s', b) -> held s s'.
Proof. unfold save_all_models_k. intros H. destruct (Z.eqb _ _); [injection H as <- _; he|]. step H. eapply held_saves. exact H. Qed.
Lemma held_clear s s' : clear_k k s = Ok s' -> held s s'.
Proof.
  unfold clear_k. cbv zeta. intros H. apply held_raise in H. eapply held_trans; [|exact H]. destruct (ml_models s) eqn:M; [|he].
  intros L. split; [exact L|]. split; [intros (l' & Q & IN); cbn in Q; injection Q as <-; destruct IN|]. intros y Y. exists y. split; [exact Y|apply same_refl].
Qed.
Lemma delete_all_length l : forall h, length (delete_all l h) = length h.
Proof. induction l as [|i l IH]; intros h; [reflexivity|]. cbn [delete_all]. rewrite IH. apply update_length. Qed.
Lemma delete_all_nth l x : forall h, nth_error (delete_all l h) m = Some (Some x) -> nth_error h m = Some (Some x).
Proof.
  induction l as [|i l IH]; intros h H; [exact H|]. cbn [delete_all] in H. apply IH in H. destruct (Nat.eq_dec i m) as [->|N]; [|now rewrite nth_update_other in H by exact N].
  assert (L : (m < length h)%nat) by (rewrite <- (update_length h m None); apply nth_error_Some; congruence). rewrite nth_update_same in H by exact L. discriminate H.
Qed.
Lemma held_parse o s diff s' b : parse_diff_output_k k o s diff = Ok (s', b) ->
  held s s' /\ (b = true -> (m < length (ml_heap s))%nat -> ~ in_list s' m).
Proof.
  unfold parse_diff_output_k. intros H. step H. rename a into s1. apply held_raise in E. step H. cbv zeta in H. step H.
  set (h := match ml_models s1 with Some l => delete_all l (ml_heap s1) | None => ml_heap s1 end) in *.
  set (s2 := with_info _ _) in H.
  assert (LH : length h = length (ml_heap s1)) by (unfold h; destruct (ml_models s1); [apply delete_all_length|reflexivity]).
  assert (NH : forall x, nth_error h m = Some (Some x) -> nth_error (ml_heap s1) m = Some (Some x)) by (intros x; unfold h; destruct (ml_models s1); [apply delete_all_nth|auto]).
  assert (P : held s1 s2 /\ ((m < length (ml_heap s1))%nat -> ~ in_list s2 m)).
  { unfold s2. clear H E1. destruct (po_models a) as [ms|]; cbn.
    - assert (NI : (m < length (ml_heap s1))%nat -> ~ in_list (with_info (with_models s1 (h ++ map Some ms) (Some (seq (length h) (length ms)))) (Some (with_parsed a0 (po_generator a) (po_format a)))) m).
      { intros L (l & Q & IN). cbn in Q. injection Q as <-. apply in_seq in IN. lia. }
      split; [|exact NI]. intros L. split; [cbn; rewrite app_length; lia|]. split; [intros Q; destruct (NI L Q)|]. intros y Y. exists y. split; [|apply same_refl].
      unfold model_of in *. cbn in Y. rewrite nth_error_app1 in Y by lia. destruct (nth_error h m) as [[x|]|] eqn:NE; try discriminate Y. injection Y as ->. now rewrite (NH _ eq_refl).
    - assert (NI : ~ in_list (with_info (with_models s1 h None) (Some (with_parsed a0 (po_generator a) (po_format a)))) m) by (intros (l & Q & _); discriminate Q).
      split; [|auto]. intros L. split; [cbn; lia|]. split; [intros Q; destruct (NI Q)|]. intros y Y. exists y. split; [|apply same_refl].
      unfold model_of in *. cbn in Y. destruct (nth_error h m) as [[x|]|] eqn:NE; try discriminate Y. injection Y as ->. now rewrite (NH _ eq_refl). }
  destruct P as [P NI]. assert (G : forall z, held s2 z -> held s z /\ ((m < length (ml_heap s))%nat -> ~ in_list z m)).
  { intros z Z. split; [eapply held_trans; [exact E|]; eapply held_trans; eassumption|]. intros L Q. destruct (E L) as (L1 & _ & _). destruct (P L1) as (L2 & _ & _). destruct (Z L2) as (_ & I & _). exact (NI L1 (I Q)). }
  destruct (ml_models s2); [|injection H as <- <-; destruct (G s2 (held_refl _ _ _)); split; [assumption|discriminate]].
  match type of H with bind ?w _ = _ => assert (W : forall z, w = Ok z -> held s2 z) by (intros z Z; destruct (po_malformed a); [eapply held_raise; exact Z|injection Z as <-; he]) end.
  match type of H with bind ?w _ = _ => destruct w as [s3| |]; cbn [bind] in H; try discriminate H end. step H. step H. step H. step H. injection H as <- <-.
  assert (Q : held s2 a4). { eapply held_trans; [apply W; reflexivity|]. eapply held_trans; [eapply held_first_model; eassumption|]. eapply held_trans; [eapply held_first; eassumption|]. eapply held_raise. eassumption. }
  destruct (G _ Q) as [G1 G2]. split; [exact G1|]. intros _. exact G2.
Qed.
Lemma held_show s s' : show_k k s = Ok s' -> held s s'.
Proof. unfold show_k. intros H. step H. step H. eapply held_trans; [eapply held_raise; eassumption|eapply held_raise; exact H]. Qed.
Lemma held_open o s diff s' b : parse_and_open_k k o s diff = Ok (s', b) -> held s s'.
Proof.
  unfold parse_and_open_k. intros H. step H. step H. step H. destruct a1 as [s1 ok]. eapply held_trans; [eapply held_clear; eassumption|]. eapply held_trans; [eapply held_raise; eassumption|].
  eapply held_trans; [eapply held_parse; eassumption|]. destruct ok.
  - step H. step H. step H. injection H as <- _. eapply held_trans; [eapply held_update; eassumption|]. eapply held_trans; [eapply held_show; eassumption|eapply held_raise; eassumption].
  - step H. injection H as <- _. eapply held_raise. eassumption.
Qed.
Lemma held_finished o s success xs out err s' : slot_diff_process_finished_k k o s success xs out err = Ok s' -> held s s'.
Proof.
  unfold slot_diff_process_finished_k. intros H. destruct (negb (ml_process s)); [discriminate H|]. step H. injection H as <-. apply (held_r s a); [|reflexivity..]. rename E into H. destruct success.
  - step H. step H. destruct a1 as [s1 ok]. eapply held_trans; [eapply held_raise; eassumption|]. eapply held_trans; [eapply held_parse; eassumption|].
    step H. eapply held_trans; [|eapply held_raise; exact H]. rename E1 into W. destruct ok; cbn [negb] in W; [|eapply held_raise; exact W]. step W. step W. step W. eapply held_trans; [|eapply held_trans; [eapply held_update; eassumption|eapply held_show; exact W]].
    destruct (mode_eqb _ _); [match goal with X : Ok _ = Ok _ |- _ => injection X as <- end; he|]. match goal with X : bind (blend_original _ _ _) _ = Ok _ |- _ => step X; injection X as <- end. match goal with X : blend_original _ _ _ = Ok ?r |- _ => destruct r end. eapply held_blend. eassumption.
  - destruct xs; eapply held_raise; exact H.
Qed.
Lemma held_open_blend o s s' b : open_and_blend_k k o s = Ok (s', b) -> held s s'.
Proof.
  unfold open_and_blend_k. intros H. step H. step H. step H. destruct a1 as [s1 ok]. apply held_clear in E. apply held_parse in E1 as [P NI]. destruct ok; cbn [negb] in H; [|step H; injection H as <- _; eapply held_trans; [exact E|eapply held_trans; [exact P|eapply held_raise; eassumption]]].
  step H. step H. step H. step H. destruct a4 as [s2 ok2].
  match goal with X : blend_original _ _ _ = Ok _ |- _ => rename X into EB end. match goal with X : depth_and_applied _ _ _ = Ok _ |- _ => rename X into ED end. match goal with X : the_list _ = Ok _ |- _ => rename X into EL end.
  assert (Q : held s s2).
  { intros L. destruct (E L) as (L1 & _). revert L. change (held s s2). eapply held_trans; [exact E|]. eapply held_trans; [exact P|]. eapply held_trans; [|eapply held_blend; exact EB]. eapply held_depth; [|exact ED].
    intros IN. apply (NI eq_refl L1). unfold the_list in EL. unfold in_list. destruct (ml_models s1) as [lx|]; [|discriminate EL]. injection EL as ->. eauto. }
  eapply held_trans; [exact Q|]. destruct ok2; cbn [negb] in H.
  - step H. step H. injection H as <- _. eapply held_trans; [eapply held_update; eassumption|eapply held_show; eassumption].
  - step H. injection H as <- _. eapply held_raise. eassumption.
Qed.
Lemma held_compare_mode s s' : compare_mode_k k s = Ok s' -> held s s'.
Proof. unfold compare_mode_k. intros H. step H. step H. destruct (ml_process _); [|discriminate H]. injection H as <-. eapply held_trans; [eapply held_clear; eassumption|]. eapply held_l; [| |eapply held_raise; eassumption]; reflexivity. Qed.
Lemma held_compare o s s' b : compare_k k o s = Ok (s', b) -> held s s'.
Proof.
  unfold compare_k. intros H. step H. cbv zeta in H.
  repeat match type of H with (if ?c then _ else _) = _ => destruct c end.
  all: try (step H; injection H as <- _; eapply held_l; [| |eapply held_compare_mode; eassumption]; reflexivity).
  all: eapply held_l; [| |eapply held_open_blend; exact H]; reflexivity.
Qed.
Lemma held_occur o s h s' : edits m h = false -> (st = true -> applies h = false) -> occur_k k o s h = Ok s' -> held s s'.
Proof.
  intros ED AP H.
  assert (ST : applies h = true -> st = false) by (intros Q; destruct st; [rewrite AP in Q by reflexivity; discriminate Q|reflexivity]).
  destruct h; cbn [occur_k applies edits] in *; unfold first_k in H.
  - eapply held_next; exact H.
  - eapply held_previous; exact H.
  - eapply held_next_file; exact H.
  - eapply held_prev_file; exact H.
  - eapply held_pair; exact H.
  - eapply held_single; exact H.
  - eapply held_apply; eauto.
  - eapply held_apply_all; eauto.
  - unfold slot_action_apply_k in H. step H. step H. step H. eapply held_trans; [|eapply held_trans; [eapply held_next; eassumption|eapply held_update; exact H]]. destruct (d_applied a); [match goal with X : Ok _ = Ok _ |- _ => injection X as <- end; he|eapply held_apply; eauto].
  - unfold slot_action_unapply_k in H. step H. step H. step H. eapply held_trans; [|eapply held_trans; [eapply held_previous; eassumption|eapply held_update; exact H]]. destruct (d_applied a); [eapply held_apply; eauto|match goal with X : Ok _ = Ok _ |- _ => injection X as <- end; he].
  - unfold slot_action_apply_all_k in H. step H. eapply held_trans; [eapply held_apply_all; eauto|eapply held_update; exact H].
  - eapply held_slot_save; exact H.
  - step H. destruct a as [s1 b]. injection H as <-. eapply held_save; eassumption.
  - step H. destruct a as [s1 b]. injection H as <-. eapply held_save_all; eassumption.
  - unfold set_read_write in H. destruct (Bool.eqb _ _); [injection H as <-; he|]. apply held_update in H. eapply held_l; [| |exact H]; reflexivity.
  - injection H as <-. he.
  - eapply held_clear; exact H.
  - eapply held_show; exact H.
  - step H. destruct a as [s1 b]. injection H as <-. eapply held_compare; eassumption.
  - unfold refresh_k in H. step H. eapply held_compare_mode; exact H.
  - unfold swap_k in H. step H. destruct (in_mode a); try (injection H as <-; he); eapply held_compare_mode; exact H.
  - step H. destruct a as [s1 b]. injection H as <-. unfold open_diff_k in E. destruct file; [injection E as <- _; he|eapply held_open; exact E].
  - step H. destruct a as [s1 b]. injection H as <-. eapply held_open; eassumption.
  - step H. destruct a as [s1 b]. injection H as <-. eapply held_open_blend; eassumption.
  - step H. destruct a as [s1 b]. injection H as <-. eapply held_parse; eassumption.
  - step H. destruct a as [s1 b]. injection H as <-. eapply held_blend; eassumption.
  - eapply held_finished; exact H.
  - step H. injection H as <-. apply held_other. intros ->. cbn in ED. now rewrite Nat.eqb_refl in ED.
Qed.
End Held.
Lemma held_nested st m calls o : (forall g s c s' h, In c (calls g s) -> c s' = Some h -> edits m h = false /\ (st = true -> applies h = false)) ->
  forall n g s s', nested calls o n g s = Ok s' -> held st m s s'.
Proof.
  intros W. assert (N : forall n, (forall g s s', match n with O => False | S n' => nested calls o n' g s = Ok s' end -> held st m s s') -> forall g s s', nested calls o n g s = Ok s' -> held st m s s').
  { intros n IH g s s' H. destruct n as [|n]; cbn [nested] in H; match type of H with ?f _ _ = _ => assert (G : forall cs t t', (forall c s' h, In c cs -> c s' = Some h -> edits m h = false /\ (st = true -> applies h = false)) -> f cs t = Ok t' -> held st m t t') end;
      try (exact (G _ _ _ (W g s) H)); clear H; (induction cs as [|c cs IHc]; intros t t' WC H; [injection H as <-; apply held_refl|]);
      (assert (WC' : forall c0 s' h, In c0 cs -> c0 s' = Some h -> edits m h = false /\ (st = true -> applies h = false)) by (intros c0 s1 h IN; apply WC; now right));
      (destruct (c t) as [h|] eqn:EC; [|eapply IHc; eassumption]).
    - discriminate H.
    - destruct (WC c t h (or_introl eq_refl) EC) as [W1 W2]. step H. eapply held_trans; [eapply held_occur; [exact IH|exact W1|exact W2|eassumption]|eapply IHc; eassumption]. }
  induction n as [|n IH]; apply N; [intros g s s' []|exact IH].
Qed.
Lemma held_lively st m calls n : (forall g s c s' h, In c (calls g s) -> c s' = Some h -> edits m h = false /\ (st = true -> applies h = false)) ->
  forall hs s s', (forall o h, In (o, h) hs -> edits m h = false /\ (st = true -> applies h = false)) -> lively calls n s hs = Ok s' -> held st m s s'.
Proof.
  intros W. induction hs as [|[o h] hs IH]; intros s s' A H; cbn [lively] in H; [injection H as <-; apply held_refl|]. step H. destruct (A o h (or_introl eq_refl)) as [A1 A2].
  eapply held_trans; [eapply held_occur; [eapply held_nested; exact W|exact A1|exact A2|eassumption]|]. eapply IH; [|exact H]. intros o' h' IN. apply (A o' h'). now right.
Qed.
Lemma apply_one x b y i d : apply_difference x b = Ok y -> nth_error (dm_store x) i = Some d ->
  exists e, nth_error (dm_store y) i = Some e /\ d_applied e = (if sel_eqb (dm_sel x) (Some i) then b else d_applied d).
Proof.
  unfold apply_difference. intros H N. destruct (dm_sel x) as [j|]; [|discriminate]. step H. apply deref_inv in E. cbn [sel_eqb]. destruct (Bool.eqb (d_applied a) b) eqn:EB.
  { injection H as <-. exists d. split; [exact N|]. destruct (Nat.eqb_spec j i) as [->|]; [|reflexivity]. rewrite N in E. injection E as <-. now apply Bool.eqb_prop. }
  cbv zeta in H. unfold apply_id in H. cbn [with_applied dm_store] in H. unfold deref in H. rewrite E in H. cbn [bind] in H. rewrite EB in H.
  assert (A : exists e, nth_error (update (dm_store x) j (apply_quietly b a)) i = Some e /\ d_applied e = (if Nat.eqb j i then b else d_applied d)).
  { destruct (Nat.eqb_spec j i) as [->|NE].
    - exists (apply_quietly b a). split; [apply nth_update_same; eapply nth_some_lt; exact E|]. unfold apply_quietly. rewrite EB. reflexivity.
    - exists d. split; [rewrite nth_update_other by exact NE; exact N|reflexivity]. }
  destruct (d_connected _); [|injection H as <-; exact A]. unfold slot_difference_applied in H. step H. injection H as <-. cbn [with_store with_contents dm_store].
  destruct A as (e & E1 & E2). apply (shift_same true) in E0. destruct (E0 i e E1) as (f & F & _ & M). exists f. split; [exact F|]. rewrite (M eq_refl). exact E2.
Qed.
