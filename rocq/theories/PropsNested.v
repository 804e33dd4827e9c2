(** C90, C91, C92: what happens while a save is under way. *)
From Coq Require Import String.
From Verif Require PLevTable.
From Verif Require Import Base QtStr Diff Save Parser SpecUnified Blend Info ModelList Life World Rounds LifeWorld Nested SpecList PHistory PSave PModelState PropsRecreate PKin PFar PWorld PropsList PropsWorld PropsLife PropsLifeWorld PropsWorkflow.
Local Open Scope Z_scope.

Lemma passes_app a : forall l b, passes l (a ++ b) = do l <- passes l a; passes l b.
Proof. induction a as [|v a IH]; intros l b; cbn [app passes bind]; [reflexivity|]. destruct (happens l v); cbn [bind]; [apply IH|reflexivity..]. Qed.

(** * Nothing happens meanwhile *)
Definition is_return (v : event) : Prop := match v with Return _ _ => True | _ => False end.
Lemma alone e s f m s' f' b : save_model_on e s f m = Ok (s', f', b) ->
  (b = true /\ s' = s /\ f' = f /\ forall e', attempt e' s m = Ok (s, inl true)) \/
  (b = false /\ f' = f /\ attempt e s m = Ok (s', inl false)) \/
  (exists text dirs place oks, attempt e s m = Ok (s, inr (text, dirs, place)) /\
     forall by_ e' stack, passes (mk_loop s f (mk_sv by_ m text dirs place Looking :: stack)) (map (Return e') oks) = ended e' by_ b (mk_loop s' f' stack)).
Proof.
  intros H. unfold save_model_on in H. step H. rename a into x. step H. rename a into i. step H. rename a into out. step H. destruct a as [s1 b1]. cbn [fst snd] in H. injection H as <- <- <-.
  unfold save_model in E2. rewrite E in E2. cbn [bind] in E2. rewrite E1 in E2. cbn [bind] in E2. injection E2 as <- <-.
  unfold save_destination in E1. step E1. rename a into u. unfold attempt. rewrite E. cbn [bind]. rewrite E2. cbn [bind].
  assert (X0 : model_of s m = Ok x -> put_model s m x = s).
  { clear. intros E. unfold put_model, model_of in *. destruct (nth_error (ml_heap s) m) as [[y|]|] eqn:N; try discriminate. injection E as ->.
    assert (G : update (ml_heap s) m (Some x) = ml_heap s).
    { clear -N. revert m N. induction (ml_heap s) as [|a h IH]; intros [|m] N; cbn in *; try discriminate; [congruence|]. now rewrite IH. }
    rewrite G. unfold with_heap. now destruct s. }
  specialize (X0 E). unfold copied.
  destruct u; cbn [negb] in *.
  2:{ injection E1 as <-. cbn. left. rewrite X0. auto. }
  cbn [env_in se_open se_write se_close se_dirs se_stat se_mkdir se_copy] in E1.
  destruct (se_open e) eqn:EO; cbn [negb] in *.
  2:{ injection E1 as <-. cbn. right. left. rewrite X0. auto. }
  step E1. rename a into lines.
  destruct (se_write e) eqn:EW; cbn [negb] in *.
  2:{ injection E1 as <-. cbn. right. left. rewrite X0. auto. }
  destruct (se_close e) eqn:EC; cbn [negb] in *.
  2:{ injection E1 as <-. cbn. right. left. rewrite X0. auto. }
  right. right. rewrite E0. cbn [bind]. unfold the_info in E0. destruct (ml_info s) as [i'|] eqn:EI; [|discriminate]. injection E0 as ->.
  destruct (mode_eqb (in_mode i) ComparingDirs) eqn:MD; cbn [andb] in E1.
  - (* directories *)
    assert (TG : save_target i x = (in_destination i ++ (if starts_with (in_local_destination i) (dm_dpath x) then skipn (length (in_local_destination i)) (dm_dpath x) else dm_dpath x)) ++ dm_dfile x).
    { unfold save_target. destruct (in_mode i); try discriminate. now rewrite <- app_assoc. }
    destruct (se_stat e) eqn:ES; cbn [andb negb] in E1.
    + exists (concat_str lines), true. eexists. exists [true; se_copy e]. split; [reflexivity|]. intros by_ e' stack. cbn [map passes happens returned lp_stack sv_stage sv_dirs andb negb].
      unfold begin_copy at 1. cbn [sv_dirs lp_list sv_model sv_place]. rewrite E. cbn [bind returned lp_stack sv_stage lp_list lp_files]. cbn [happens returned lp_stack sv_stage].
      destruct (se_copy e); cbn [lp_list sv_model].
      * rewrite E. cbn [bind]. step E1. injection E1 as <-. cbn [bind so_error so_model so_ret so_written sv_place sv_by sv_text lp_files]. rewrite TG. destruct (ended _ _ _ _); reflexivity.
      * injection E1 as <-. cbn [so_error so_model so_ret so_written sv_by lp_files]. rewrite X0. destruct (ended _ _ _ _); reflexivity.
    + destruct (se_mkdir e) eqn:EM; cbn [negb] in E1.
      * exists (concat_str lines), true. eexists. exists [false; true; se_copy e]. split; [reflexivity|]. intros by_ e' stack. cbn [map passes happens returned lp_stack sv_stage sv_dirs andb negb bind].
        cbn [happens returned lp_stack sv_stage]. unfold begin_copy at 1. cbn [sv_dirs lp_list sv_model sv_place]. rewrite E. cbn [bind returned lp_stack sv_stage lp_list lp_files]. cbn [happens returned lp_stack sv_stage].
        destruct (se_copy e); cbn [lp_list sv_model].
        -- rewrite E. cbn [bind]. step E1. injection E1 as <-. cbn [bind so_error so_model so_ret so_written sv_place sv_by sv_text lp_files]. rewrite TG. destruct (ended _ _ _ _); reflexivity.
        -- injection E1 as <-. cbn [so_error so_model so_ret so_written sv_by lp_files]. rewrite X0. destruct (ended _ _ _ _); reflexivity.
      * exists (concat_str lines), true. eexists. exists [false; false]. split; [reflexivity|]. intros by_ e' stack. cbn [map passes happens returned lp_stack sv_stage sv_dirs andb negb bind].
        cbn [happens returned lp_stack sv_stage]. injection E1 as <-. cbn [so_error so_model so_ret so_written sv_by lp_files lp_list]. rewrite X0. destruct (ended _ _ _ _); reflexivity.
  - assert (TG : save_target i x = in_destination i) by (unfold save_target; destruct (in_mode i); try discriminate; reflexivity).
    exists (concat_str lines), false, [], [true; se_copy e]. split; [reflexivity|]. intros by_ e' stack. cbn [map passes happens returned lp_stack sv_stage sv_dirs andb negb].
    unfold begin_copy at 1. cbn [sv_dirs lp_list sv_model sv_place]. unfold the_info. rewrite EI. cbn [bind returned lp_stack sv_stage lp_list lp_files]. cbn [happens returned lp_stack sv_stage].
    destruct (se_copy e); cbn [lp_list sv_model].
    + rewrite E. cbn [bind]. step E1. injection E1 as <-. cbn [bind so_error so_model so_ret so_written sv_place sv_by sv_text lp_files]. rewrite TG. destruct (ended _ _ _ _); reflexivity.
    + injection E1 as <-. cbn [so_error so_model so_ret so_written sv_by lp_files]. rewrite X0. destruct (ended _ _ _ _); reflexivity.
Qed.
Lemma save_keeps_list e s f m s' f' b : save_model_on e s f m = Ok (s', f', b) -> ml_models s' = ml_models s.
Proof.
  intros H. unfold save_model_on in H. step H. step H. step H. step H. destruct a2 as [s1 b1]. injection H as <- _ _. unfold save_model in E2. step E2. step E2. injection E2 as <- _. destruct (so_error a3); reflexivity.
Qed.
(** If nothing happens while a save waits, saving is what it is in World.v, so everything proved there holds: for one model, the selected
    model, and all models, with any outcome of every step. *)
Theorem C90_nothing_meanwhile :
  (forall e s f m s' f' b stack, save_model_on e s f m = Ok (s', f', b) ->
     exists vs, Forall is_return vs /\ passes (mk_loop s f stack) (AskModel e m :: vs) = Ok (mk_loop s' f' stack)) /\
  (forall e s f s' f' stack, slot_save_on e s f = Ok (s', f') ->
     exists vs, Forall is_return vs /\ passes (mk_loop s f stack) (Ask e :: vs) = Ok (mk_loop s' f' stack)) /\
  (forall envs s f s' f' b stack, save_all_on envs s f = Ok (s', f', b) ->
     exists e vs, Forall is_return vs /\ passes (mk_loop s f stack) (AskAll e :: vs) = Ok (mk_loop s' f' stack)).
Proof.
  assert (R : forall e oks, Forall is_return (map (Return e) oks)) by (intros; apply Forall_map, Forall_forall; intros; exact I).
  split; [|split].
  - intros e s f m s' f' b stack H. cbn [passes happens]. unfold start. cbn [lp_list lp_files lp_stack].
    destruct (alone _ _ _ _ _ _ _ H) as [(-> & -> & -> & A)|[(-> & -> & A)|(text & dirs & place & oks & A & B)]].
    + exists []. split; [constructor|]. rewrite A. reflexivity.
    + exists []. split; [constructor|]. rewrite A. reflexivity.
    + exists (map (Return e) oks). split; [apply R|]. rewrite A. cbn [bind]. rewrite B. reflexivity.
  - intros e s f s' f' stack H. unfold slot_save_on in H. destruct (ml_sel s) as [m|] eqn:SE.
    2:{ injection H as <- <-. exists []. split; [constructor|]. cbn [passes happens lp_list]. rewrite SE. reflexivity. }
    step H. rename a into i. step H. destruct a as [[s1 f1] b1]. step H. injection H as <- <-. cbn [fst snd].
    assert (S1 : a = after_slot s1).
    { unfold slot_save in E1. rewrite SE in E1. unfold save_model_on in E0. step E0. step E0. step E0. step E0. destruct a3 as [s2 b2]. cbn [fst snd] in E0. injection E0 as <- _ _.
      injection E as <-. rewrite E5 in E1. cbn [bind] in E1. injection E1 as <-. reflexivity. }
    subst a. cbn [passes happens lp_list]. rewrite SE. unfold start. cbn [lp_list lp_files lp_stack].
    destruct (alone _ _ _ _ _ _ _ E0) as [(-> & -> & -> & A)|[(-> & -> & A)|(text & dirs & place & oks & A & B)]].
    + exists []. split; [constructor|]. rewrite A. reflexivity.
    + exists []. split; [constructor|]. rewrite A. reflexivity.
    + exists (map (Return e) oks). split; [apply R|]. rewrite A. cbn [bind]. rewrite B. reflexivity.
  - intros envs s f s' f' b stack H. unfold save_all_on in H. cbn [passes happens lp_list].
    destruct (Z.eqb (model_count s) 0); [injection H as <- <- _; exists good, []; split; [constructor|reflexivity]|]. unfold the_list in H |- *. destruct (ml_models s) as [all|] eqn:MA; [|discriminate]. cbn [bind] in H.
    enough (G : forall rest k s f, ml_models s = Some all -> save_models_on envs k s f rest = Ok (s', f', b) ->
              exists e vs, Forall is_return vs /\ (do l <- go_on e all rest (mk_loop s f stack); passes l vs) = Ok (mk_loop s' f' stack)).
    { destruct (G all 0%nat s f MA H) as (e & vs & V & P). exists e, vs. split; [exact V|]. exact P. }
    clear H MA s f. induction rest as [|m rest IH]; intros k s f MA H; cbn [save_models_on] in H.
    { injection H as <- <- _. exists good, []. split; [constructor|reflexivity]. }
    step H. destruct a as [[s1 f1] b1]. pose proof (save_keeps_list _ _ _ _ _ _ _ E) as K. rewrite MA in K.
    assert (GO : forall e st, go_on e all (m :: rest) (mk_loop s f st) = do r <- attempt e s m;
        match r with
        | (s, inl true) => go_on e all rest (mk_loop s f st)
        | (s, inl false) => Ok (mk_loop s f st)
        | (s, inr (text, dirs, place)) => Ok (mk_loop s f (mk_sv (ByAll all rest) m text dirs place Looking :: st))
        end).
    { intros e st. cbn [go_on lp_list lp_files lp_stack]. rewrite MA. destruct (list_eq_dec Nat.eq_dec all all); [reflexivity|congruence]. }
    destruct (alone _ _ _ _ _ _ _ E) as [(-> & -> & -> & A)|[(-> & -> & A)|(text & dirs & place & oks & A & B)]].
    + destruct (IH _ _ _ MA H) as (e & vs & V & P). exists e, vs. split; [exact V|]. rewrite GO, A. exact P.
    + injection H as <- <- _. exists (envs k), []. split; [constructor|]. rewrite GO, A. reflexivity.
    + destruct b1.
      * destruct (IH _ _ _ K H) as (e & vs & V & P). exists (envs k), (map (Return e) oks ++ vs). split; [apply Forall_app; auto|]. rewrite GO, A. cbn [bind]. rewrite passes_app, B. exact P.
      * injection H as <- <- _. exists (envs k), (map (Return (envs k)) oks). split; [apply R|]. rewrite GO, A. cbn [bind]. rewrite B. reflexivity.
Qed.
Print Assumptions C90_nothing_meanwhile.

(** * C90: what is written and what is marked as saved *)
(** The text that a save of the model would write. *)
Definition text_to_save (x : dmodel) : res str := do lines <- saved_lines (dm_store x) (dm_hunks x); Ok (concat_str lines).
Lemma attempt_text e s m s' text dirs place : attempt e s m = Ok (s', inr (text, dirs, place)) ->
  s' = s /\ exists x i, model_of s m = Ok x /\ has_unsaved x = Ok true /\ text_to_save x = Ok text /\ ml_info s = Some i /\ dirs = (match in_mode i with ComparingDirs => true | _ => false end) /\
    (dirs = true -> exists rest, place = in_destination i ++ rest).
Proof.
  unfold attempt, text_to_save. intros H. step H. step H. destruct a0; cbn [negb] in H; [|discriminate]. destruct (se_open e); cbn [negb] in H; [|discriminate]. step H.
  destruct (se_write e); cbn [negb] in H; [|discriminate]. destruct (se_close e); cbn [negb] in H; [|discriminate]. unfold the_info in H. destruct (ml_info s) as [i|] eqn:I; [|discriminate]. cbn [bind] in H.
  destruct (mode_eqb (in_mode i) ComparingDirs) eqn:M.
  - injection H as <- <- <- <-. split; [reflexivity|]. exists a, i. rewrite E1. cbn [bind]. split; [first [exact E|reflexivity]|]. split; [first [exact E0|reflexivity]|]. split; [reflexivity|]. split; [first [exact I|reflexivity]|]. split; [exact (eq_sym M)|]. intros _. eexists. reflexivity.
  - injection H as <- <- <- <-. split; [reflexivity|]. exists a, i. rewrite E1. cbn [bind]. split; [first [exact E|reflexivity]|]. split; [first [exact E0|reflexivity]|]. split; [reflexivity|]. split; [first [exact I|reflexivity]|]. split; [exact (eq_sym M)|]. discriminate.
Qed.
Lemma attempt_returns e s m s' ret : attempt e s m = Ok (s', inl ret) -> s' = s \/ s' = emit (Error SaveProblem) s.
Proof.
  unfold attempt. intros H. step H. step H. destruct a0; cbn [negb] in H; [|injection H as <- _; now left]. destruct (se_open e); cbn [negb] in H; [|injection H as <- _; now right]. step H.
  destruct (se_write e); cbn [negb] in H; [|injection H as <- _; now right]. destruct (se_close e); cbn [negb] in H; [|injection H as <- _; now right]. step H.
  destruct (mode_eqb (in_mode a1) ComparingDirs); discriminate.
Qed.
(** The start of one of two ways: it returns, or a save is under way. *)
Definition under_way (s : mlist) (v : saving) : Prop :=
  exists x i, model_of s (sv_model v) = Ok x /\ has_unsaved x = Ok true /\ text_to_save x = Ok (sv_text v) /\ ml_info s = Some i /\ sv_dirs v = (match in_mode i with ComparingDirs => true | _ => false end) /\
    (sv_dirs v = true -> exists rest, sv_place v = in_destination i ++ rest) /\ sv_stage v = Looking.
Definition like (s s' : mlist) : Prop := ml_heap s' = ml_heap s /\ ml_models s' = ml_models s /\ ml_info s' = ml_info s /\ exists g, ml_out s' = ml_out s ++ g.
Lemma like_refl s : like s s. Proof. split; [|split; [|split]]; try reflexivity. exists []. now rewrite app_nil_r. Qed.
Lemma like_trans a b c : like a b -> like b c -> like a c.
Proof. intros (A1 & A2 & A3 & g & A4) (B1 & B2 & B3 & k & B4). split; [congruence|]. split; [congruence|]. split; [congruence|]. exists (g ++ k). now rewrite B4, A4, app_assoc. Qed.
Lemma like_emit g s : like s (emit g s). Proof. split; [|split; [|split]]; try reflexivity. now exists [g]. Qed.
Lemma like_under_way s s' v : like s s' -> under_way s' v -> under_way s v.
Proof. intros (H & _ & I & _) (x & i & M & R). exists x, i. rewrite <- I. unfold model_of in *. rewrite <- H. auto. Qed.
Lemma under_way_like s s' v : like s s' -> under_way s v -> under_way s' v.
Proof. intros (H & _ & I & _) (x & i & M & R). exists x, i. rewrite I. unfold model_of in *. rewrite H. auto. Qed.
Lemma go_on_ok e all rest : forall l l', go_on e all rest l = Ok l' ->
  like (lp_list l) (lp_list l') /\ lp_files l' = lp_files l /\
  (lp_stack l' = lp_stack l \/ exists v, lp_stack l' = v :: lp_stack l /\ under_way (lp_list l) v /\ exists rest', sv_by v = ByAll all rest').
Proof.
  induction rest as [|m rest IH]; intros l l' H; cbn [go_on] in H; [injection H as <-; split; [apply like_refl|auto]|].
  destruct (match ml_models (lp_list l) with Some now => if list_eq_dec Nat.eq_dec now all then true else false | None => false end); [|discriminate]. step H. destruct a as [s1 [ret|[[text dirs] place]]].
  - assert (L : like (lp_list l) s1) by (destruct (attempt_returns _ _ _ _ _ E) as [->| ->]; [apply like_refl|apply like_emit]). destruct ret.
    + apply IH in H. cbn [lp_list lp_files lp_stack] in H. destruct H as (A & B & C). split; [eapply like_trans; eauto|]. split; [exact B|]. destruct C as [C|(v & C1 & C2 & C3)]; [now left|right]. exists v. split; [exact C1|]. split; [|exact C3].
      eapply like_under_way; eauto.
    + injection H as <-. cbn. auto.
  - injection H as <-. apply attempt_text in E as (-> & x & i & M & U & T & I & D & P). cbn. split; [apply like_refl|]. split; [reflexivity|]. right. eexists. split; [reflexivity|]. split; [|cbn; eauto].
    exists x, i. cbn. auto 8.
Qed.
Lemma ended_ok e by_ ret l l' : ended e by_ ret l = Ok l' ->
  like (lp_list l) (lp_list l') /\ lp_files l' = lp_files l /\
  (lp_stack l' = lp_stack l \/ exists v, lp_stack l' = v :: lp_stack l /\ under_way (lp_list l) v /\ exists all rest, by_ = ByAll all rest).
Proof.
  destruct by_ as [| |all rest]; cbn [ended]; intros H.
  - injection H as <-. cbn [lp_list lp_files lp_stack]. split; [|auto]. unfold after_slot. destruct (ml_has_save (lp_list l)); (split; [|split; [|split]]; try reflexivity; now exists [UpdateActions]).
  - injection H as <-. split; [apply like_refl|auto].
  - destruct ret; [|injection H as <-; split; [apply like_refl|auto]]. apply go_on_ok in H as (A & B & C). split; [exact A|]. split; [exact B|]. destruct C as [C|(v & C1 & C2 & r & C3)]; [now left|right]. eauto 8.
Qed.
Lemma start_ok e by_ m l l' : start e by_ m l = Ok l' ->
  like (lp_list l) (lp_list l') /\ lp_files l' = lp_files l /\
  (lp_stack l' = lp_stack l \/ exists v, lp_stack l' = v :: lp_stack l /\ under_way (lp_list l) v).
Proof.
  unfold start. intros H. step H. destruct a as [s1 [ret|[[text dirs] place]]].
  - assert (L : like (lp_list l) s1) by (destruct (attempt_returns _ _ _ _ _ E) as [->| ->]; [apply like_refl|apply like_emit]). apply ended_ok in H as (A & B & C). cbn [lp_list lp_files lp_stack] in *.
    split; [eapply like_trans; eauto|]. split; [exact B|]. destruct C as [C|(v & C1 & C2 & _)]; [now left|right]. exists v. split; [exact C1|]. eapply like_under_way; eauto.
  - injection H as <-. apply attempt_text in E as (-> & x & i & M & U & T & I & D & P). cbn. split; [apply like_refl|]. split; [reflexivity|]. right. eexists. split; [reflexivity|].
    exists x, i. cbn. auto 8.
Qed.

(** What an event does to the saves under way and to the files. *)
Inductive move (l l' : loop) : Prop :=
| mv_stay : lp_stack l' = lp_stack l -> lp_files l' = lp_files l -> move l l'
| mv_begin v : lp_stack l' = v :: lp_stack l -> lp_files l' = lp_files l -> under_way (lp_list l') v -> move l l'
| mv_next v st place r : lp_stack l = v :: r -> lp_stack l' = mk_sv (sv_by v) (sv_model v) (sv_text v) (sv_dirs v) place st :: r ->
    lp_list l' = lp_list l -> lp_files l' = lp_files l ->
    (st = MakingDirectory /\ place = sv_place v \/
     st = Copying /\ sv_stage v <> Copying /\ if sv_dirs v then exists name, place = sv_place v ++ name else exists i, ml_info (lp_list l) = Some i /\ place = in_destination i) -> sv_stage v <> Copying -> move l l'
| mv_end v r : lp_stack l = v :: r ->
    (lp_stack l' = r \/ exists all rest w, sv_by v = ByAll all rest /\ lp_stack l' = w :: r /\ under_way (lp_list l') w) ->
    (sv_stage v = Copying /\ lp_files l' = put_file (lp_files l) (sv_place v) (sv_text v) /\
       (exists x st, model_of (lp_list l) (sv_model v) = Ok x /\ clear_unsaved (dm_diffs x) (dm_store x) = Ok st /\ model_of (lp_list l') (sv_model v) = Ok (with_store x st)) \/
     lp_files l' = lp_files l /\ ml_heap (lp_list l') = ml_heap (lp_list l) /\ exists g, ml_out (lp_list l') = ml_out (lp_list l) ++ Error SaveProblem :: g) -> move l l'.
Lemma begin_copy_moves v r l l' : lp_stack l = v :: r -> sv_stage v <> Copying -> begin_copy v r l = Ok l' -> move l l'.
Proof.
  intros S NC H. unfold begin_copy in H. step H. injection H as <-. eapply mv_next with (st := Copying); [exact S|reflexivity|reflexivity|reflexivity| |exact NC]. right. split; [reflexivity|]. split; [exact NC|].
  destruct (sv_dirs v); step E; injection E as <-; [eauto|]. unfold the_info in E0. destruct (ml_info (lp_list l)) eqn:I; [|discriminate]. injection E0 as ->. eauto.
Qed.
Lemma model_of_put s m x y : model_of s m = Ok x -> model_of (put_model s m y) m = Ok y.
Proof.
  unfold model_of, put_model. cbn [with_heap ml_heap]. intros H. destruct (nth_error (ml_heap s) m) as [[z|]|] eqn:N; try discriminate.
  replace (nth_error (update (ml_heap s) m (Some y)) m) with (Some (Some y)); [reflexivity|]. symmetry. clear H. revert m N. induction (ml_heap s) as [|a h IH]; intros [|m] N; cbn in *; try discriminate; [reflexivity|]. now apply IH.
Qed.
Lemma happens_moves l v l' : happens l v = Ok l' -> move l l'.
Proof.
  destruct v as [e|e m|e|e ok|o h]; cbn [happens]; intros H.
  - destruct (ml_sel (lp_list l)) as [m|]; [|injection H as <-; now apply mv_stay]. apply start_ok in H as (A & B & [C|(w & C1 & C2)]); [now apply mv_stay|]. eapply mv_begin; [exact C1|exact B|eapply under_way_like; eauto].
  - apply start_ok in H as (A & B & [C|(w & C1 & C2)]); [now apply mv_stay|]. eapply mv_begin; [exact C1|exact B|eapply under_way_like; eauto].
  - destruct (Z.eqb _ _); [injection H as <-; now apply mv_stay|]. step H. apply go_on_ok in H as (A & B & [C|(w & C1 & C2 & _)]); [now apply mv_stay|]. eapply mv_begin; [exact C1|exact B|eapply under_way_like; eauto].
  - unfold returned in H. destruct (lp_stack l) as [|v r] eqn:S; [injection H as <-; apply mv_stay; congruence|]. destruct (sv_stage v) eqn:G.
    + destruct (_ && _)%bool; [|eapply begin_copy_moves; [exact S|congruence|exact H]]. injection H as <-. eapply mv_next; [exact S|reflexivity|reflexivity|reflexivity| |congruence]. left. auto.
    + destruct ok; [eapply begin_copy_moves; [exact S|congruence|exact H]|]. apply ended_ok in H as (A & B & C). cbn [lp_list lp_files lp_stack] in *.
      eapply mv_end; [exact S| |].
      * destruct C as [C|(w & C1 & C2 & all & rest & C3)]; [now left|right]. exists all, rest, w. split; [exact C3|]. split; [exact C1|]. eapply under_way_like; eauto.
      * right. destruct A as (A1 & _ & _ & g & A4). split; [exact B|]. split; [exact A1|]. exists g. rewrite A4. cbn [emit ml_out]. now rewrite <- app_assoc.
    + destruct ok.
      * step H. step H. apply ended_ok in H as (A & B & C). cbn [lp_list lp_files lp_stack] in *. eapply mv_end; [exact S| |].
        -- destruct C as [C|(w & C1 & C2 & all & rest & C3)]; [now left|right]. exists all, rest, w. split; [exact C3|]. split; [exact C1|]. eapply under_way_like; eauto.
        -- left. split; [exact G|]. split; [exact B|]. exists a, a0. split; [exact E|]. split; [exact E0|]. unfold model_of. rewrite (proj1 A). exact (model_of_put _ _ _ _ E).
      * apply ended_ok in H as (A & B & C). cbn [lp_list lp_files lp_stack] in *.
        eapply mv_end; [exact S| |].
        -- destruct C as [C|(w & C1 & C2 & all & rest & C3)]; [now left|right]. exists all, rest, w. split; [exact C3|]. split; [exact C1|]. eapply under_way_like; eauto.
        -- right. destruct A as (A1 & _ & _ & g & A4). split; [exact B|]. split; [exact A1|]. exists g. rewrite A4. cbn [emit ml_out]. now rewrite <- app_assoc.
  - assert (K : (do s <- occur (outside_on o (lp_files l)) (lp_list l) h; Ok (mk_loop s (lp_files l) (lp_stack l))) = Ok l' -> move l l') by (intros Q; step Q; injection Q as <-; now apply mv_stay).
    destruct h; try (apply K; exact H); injection H as <-; now apply mv_stay.
Qed.

(** * What marking as saved changes *)
Lemma clear_marks l : forall st st', clear_unsaved l st = Ok st' ->
  forall i d, nth_error st i = Some d -> exists b, nth_error st' i = Some (set_unsaved b d) /\ (In i l -> b = false).
Proof.
  induction l as [|j l IH]; intros st st' H i d N; cbn [clear_unsaved] in H.
  - injection H as <-. exists (d_unsaved d). split; [rewrite N; now destruct d|intros []].
  - step H. apply deref_inv in E. destruct (Nat.eq_dec j i) as [->|D].
    + assert (N' : nth_error (update st i (set_unsaved false a)) i = Some (set_unsaved false a)) by (apply nth_update_same; eapply nth_some_lt; exact E).
      assert (a = d) by congruence. subst a. destruct (IH _ _ H _ _ N') as (b & B1 & B2). exists false. split; [|reflexivity].
      destruct b; [|exact B1]. destruct (in_dec Nat.eq_dec i l) as [I|I]; [now specialize (B2 I)|].
      (* not cleared again: it stays false *)
      clear B2 IH. exfalso. assert (K : forall l st st' d, clear_unsaved l st = Ok st' -> ~ In i l -> nth_error st i = Some d -> nth_error st' i = Some d).
      { clear. induction l as [|j l IH]; intros st st' d H I N; cbn [clear_unsaved In] in *; [now injection H as <-|]. step H. eapply IH; [exact H|tauto|]. rewrite nth_update_other; [exact N|]. intros ->. tauto. }
      rewrite (K _ _ _ _ H I N') in B1. discriminate.
    + assert (N' : nth_error (update st j (set_unsaved false a)) i = Some d) by (rewrite nth_update_other; [exact N|congruence]).
      destruct (IH _ _ H _ _ N') as (b & B1 & B2). exists b. split; [exact B1|]. intros [->|I]; [congruence|auto].
Qed.
Lemma marked_all l st st' : clear_unsaved l st = Ok st' -> exists ds, deref_all st' l = Ok ds /\ existsb d_unsaved ds = false.
Proof.
  intros H. assert (R : Forall (fun i => exists d, nth_error st i = Some d) l).
  { revert st st' H. induction l as [|i l IH]; intros st st' H; [constructor|]. cbn [clear_unsaved] in H. step H. apply deref_inv in E. constructor; [eauto|].
    eapply Forall_impl; [|eapply IH; exact H]. intros j [d N]. destruct (Nat.eq_dec i j) as [->|D]; [eauto|]. rewrite nth_update_other in N by congruence. eauto. }
  pose proof (clear_marks _ _ _ H) as M. clear H. assert (R' : Forall (fun i => exists d, nth_error st' i = Some d /\ d_unsaved d = false) l).
  { rewrite Forall_forall in *. intros i I. destruct (R i I) as [d N]. destruct (M i d N) as (b & B & F). rewrite (F I) in B. eauto. }
  clear R M. induction R' as [|i l (d & N & U) _ (ds & D & X)]; [exists []; auto|]. exists (d :: ds). cbn [deref_all existsb]. unfold deref. rewrite N. cbn [bind]. rewrite D, U, X. auto.
Qed.
Lemma marked_text x st : clear_unsaved (dm_diffs x) (dm_store x) = Ok st -> forall t, text_to_save x = Ok t -> text_to_save (with_store x st) = Ok t.
Proof.
  intros H. pose proof (clear_marks _ _ _ H) as M. clear H. unfold text_to_save. cbn [with_store dm_store dm_hunks].
  assert (D : forall l ds, deref_all (dm_store x) l = Ok ds -> exists ds', deref_all st l = Ok ds' /\ map saved_lines_of ds' = map saved_lines_of ds).
  { induction l as [|i l IH]; intros ds H; cbn [deref_all] in *; [injection H as <-; exists []; auto|]. step H. step H. injection H as <-. destruct (IH _ eq_refl) as (ds' & -> & Q). apply deref_inv in E.
    destruct (M _ _ E) as (b & N & _). unfold deref. rewrite N. cbn [bind]. eexists. split; [reflexivity|]. cbn [map]. now rewrite Q. }
  assert (G : forall hs ls, saved_lines (dm_store x) hs = Ok ls -> saved_lines st hs = Ok ls).
  { induction hs as [|h hs IH]; intros ls H; cbn [saved_lines] in *; [exact H|]. step H. step H. injection H as <-. destruct (D _ _ E) as (ds' & -> & Q). cbn [bind]. rewrite (IH _ eq_refl). cbn [bind]. now rewrite Q. }
  intros t. destruct (saved_lines (dm_store x) (dm_hunks x)) as [ls| |] eqn:E; cbn [bind]; try discriminate. intros H. injection H as <-. cbn [with_store dm_store dm_hunks]. change (dm_store (with_store x st)) with st; change (dm_hunks (with_store x st)) with (dm_hunks x); now rewrite (G _ _ E).
Qed.

(** * C90: what is written *)
Lemma last_event vs v l l' : passes l (vs ++ [v]) = Ok l' -> exists l1, passes l vs = Ok l1 /\ happens l1 v = Ok l'.
Proof. rewrite passes_app. intros H. step H. exists a. split; [reflexivity|]. cbn [passes] in H. step H. exact H. Qed.
(** A moment of a history: the state after some of its events. *)
Definition moment (l : loop) (vs : list event) (k : loop) : Prop := exists past future, vs = past ++ future /\ passes l past = Ok k.
Lemma moment_before l vs v k : moment l vs k -> moment l (vs ++ [v]) k.
Proof. intros (p & q & -> & P). exists p, (q ++ [v]). now rewrite app_assoc. Qed.
Lemma moment_now l vs k : passes l vs = Ok k -> moment l vs k.
Proof. intros P. exists vs, []. now rewrite app_nil_r. Qed.
Definition began (l : loop) (vs : list event) (v : saving) : Prop := exists k w, moment l vs k /\ under_way (lp_list k) w /\
  sv_model v = sv_model w /\ sv_text v = sv_text w /\ sv_dirs v = sv_dirs w /\
  match sv_stage v with
  | Copying => if sv_dirs v then exists name, sv_place v = sv_place w ++ name else exists k' i, moment l vs k' /\ ml_info (lp_list k') = Some i /\ sv_place v = in_destination i
  | _ => sv_place v = sv_place w
  end.
Lemma began_before l vs v w : began l vs w -> began l (vs ++ [v]) w.
Proof.
  intros (k & x & M & U & A & B & C & D). exists k, x. split; [now apply moment_before|]. split; [exact U|]. do 3 (split; [assumption|]). destruct (sv_stage w); auto. destruct (sv_dirs w); auto.
  destruct D as (k' & i & D1 & D2). exists k', i. split; [now apply moment_before|exact D2].
Qed.
Lemma began_now l vs k v : passes l vs = Ok k -> under_way (lp_list k) v -> began l vs v.
Proof. intros P U. exists k, v. split; [now apply moment_now|]. split; [exact U|]. do 3 (split; [reflexivity|]). destruct U as (x & i & _ & _ & _ & _ & _ & _ & ->). reflexivity. Qed.
Definition comes_from (l : loop) (vs : list event) (u : str) (t : str) : Prop := exists v, began l vs v /\ sv_stage v = Copying /\ sv_place v = u /\ sv_text v = t.
Lemma written_history s f : forall vs l, passes (mk_loop s f []) vs = Ok l ->
  Forall (began (mk_loop s f []) vs) (lp_stack l) /\ forall u, lp_files l u = f u \/ exists t, lp_files l u = Some t /\ comes_from (mk_loop s f []) vs u t.
Proof.
  induction vs as [|v vs IH] using rev_ind; intros l H; [injection H as <-; cbn; auto|]. pose proof H as ALL. apply last_event in H as (l1 & P & H). destruct (IH _ P) as [ST FI]. clear IH.
  assert (ST' : Forall (began (mk_loop s f []) (vs ++ [v])) (lp_stack l1)) by (eapply Forall_impl; [|exact ST]; intros w; apply began_before).
  assert (FI' : forall u, lp_files l1 u = f u \/ exists t, lp_files l1 u = Some t /\ comes_from (mk_loop s f []) (vs ++ [v]) u t).
  { intros u. destruct (FI u) as [A|(t & A & w & W1 & W2)]; [now left|right]. exists t. split; [exact A|]. exists w. split; [now apply began_before|exact W2]. }
  apply happens_moves in H. destruct H as [A B|w A B U|w st place r A B C D G NC|w r A B C].
  - rewrite A, B. auto.
  - rewrite A, B. split; [|exact FI']. constructor; [|exact ST']. eapply began_now; eauto.
  - rewrite B, D. split; [|exact FI']. rewrite A in ST'. inversion ST' as [|? ? W R]; subst. constructor; [|exact R].
    destruct W as (k & w0 & M & U & E1 & E2 & E3 & E4). exists k, w0. cbn. split; [exact M|]. split; [exact U|]. do 3 (split; [assumption|]).
    assert (PL : sv_place w = sv_place w0) by (destruct (sv_stage w); [exact E4|exact E4|congruence]).
    destruct G as [[-> ->]|(-> & _ & G)]; [exact PL|]. destruct (sv_dirs w); [destruct G as [name ->]; exists name; congruence|]. destruct G as (i & I & ->). exists l, i. split; [now apply moment_now|]. rewrite C. auto.
  - rewrite A in ST'. inversion ST' as [|? ? W R]; subst. split.
    + destruct B as [->|(all & rest & w' & _ & -> & U)]; [exact R|]. constructor; [|exact R]. eapply began_now; eauto.
    + destruct C as [(C1 & -> & _)|(-> & _)]; [|exact FI']. intros u. unfold put_file. destruct (str_eqb (sv_place w) u) eqn:E; [|apply FI']. apply PLevTable.str_eqb_ok in E. right. exists (sv_text w). split; [reflexivity|]. exists w. auto.
Qed.

(** Whatever happens, also while saves are under way, other saves included: a file that is not as it was has the text that a model with
    unsaved changes had at some moment. *)
Theorem C90_what_is_written :
  forall s f vs l u, passes (mk_loop s f []) vs = Ok l -> lp_files l u <> f u ->
  exists k m x t, moment (mk_loop s f []) vs k /\ model_of (lp_list k) m = Ok x /\ has_unsaved x = Ok true /\ text_to_save x = Ok t /\ lp_files l u = Some t.
Proof.
  intros s f vs l u H D. destruct (written_history _ _ _ _ H) as [_ W]. destruct (W u) as [A|(t & A & v & (k & w & M & (x & i & X1 & X2 & X3 & _) & _ & T & _) & _ & _ & V)]; [contradiction|].
  exists k, (sv_model w), x, t. rewrite <- V, T. repeat (split; [assumption|]). congruence.
Qed.
Print Assumptions C90_what_is_written.

(** A save of one model, asked for by the user of the list or by the action. *)
Definition asks (s : mlist) (v : event) (m : nat) : Prop := match v with AskModel _ m' => m' = m | Ask _ => ml_sel s = Some m | _ => False end.
Lemma asked_frame l v m l' : asks (lp_list l) v m -> happens l v = Ok l' -> (length (lp_stack l) < length (lp_stack l'))%nat ->
  exists w, lp_stack l' = w :: lp_stack l /\ (sv_by w = ByCall \/ sv_by w = BySlot) /\ sv_model w = m /\ exists x, model_of (lp_list l) m = Ok x /\ text_to_save x = Ok (sv_text w).
Proof.
  intros A H L.
  assert (K : forall e by_, by_ = ByCall \/ by_ = BySlot -> start e by_ m l = Ok l' -> exists w, lp_stack l' = w :: lp_stack l /\ (sv_by w = ByCall \/ sv_by w = BySlot) /\ sv_model w = m /\ exists x, model_of (lp_list l) m = Ok x /\ text_to_save x = Ok (sv_text w)).
  { intros e by_ B Q. unfold start in Q. step Q. destruct a as [s1 [ret|[[text dirs] place]]].
    - exfalso. apply ended_ok in Q as (_ & _ & [C|(w & _ & _ & all & rest & C)]); [rewrite C in L; cbn in L; lia|destruct B; congruence].
    - injection Q as <-. eexists. split; [reflexivity|]. split; [exact B|]. split; [reflexivity|]. apply attempt_text in E as (_ & x & i & M & _ & T & _). eauto. }
  destruct v; cbn [asks happens] in *; try contradiction.
  - rewrite A in H. eapply K; [|exact H]. auto.
  - subst m0. eapply K; [|exact H]. auto.
Qed.
(** The first of the saves that are above [n] others. *)
Definition above (n : nat) (w : saving) (stack : list saving) : Prop := exists top low, stack = top ++ w :: low /\ length low = n.
Lemma above_step n w l l' : (sv_by w = ByCall \/ sv_by w = BySlot) -> above n w (lp_stack l) -> move l l' -> (n < length (lp_stack l'))%nat ->
  exists w', above n w' (lp_stack l') /\ sv_by w' = sv_by w /\ sv_model w' = sv_model w /\ sv_text w' = sv_text w.
Proof.
  intros B (top & low & S & L) M G. destruct M as [A _|v A _ _|v st place r A A' _ _ _ _|v r A A' _].
  - exists w. rewrite A. split; [exists top, low; auto|auto].
  - exists w. rewrite A, S. split; [exists (v :: top), low; auto|auto].
  - rewrite A' in *. rewrite S in A. destruct top as [|t top]; injection A as -> <-.
    + eexists. split; [exists [], low; split; [reflexivity|exact L]|]. auto.
    + exists w. split; [exists (mk_sv (sv_by v) (sv_model v) (sv_text v) (sv_dirs v) place st :: top), low; split; [reflexivity|exact L]|auto].
  - rewrite S in A. destruct top as [|t top]; injection A as -> <-.
    + exfalso. destruct A' as [A'|(all & rest & x & A' & _)]; [rewrite A' in G; lia|destruct B; congruence].
    + exists w. split; [|auto]. destruct A' as [->|(all & rest & x & _ & -> & _)]; [exists top, low|exists (x :: top), low]; split; auto.
Qed.
(** What a save that has been asked for does, whatever happens while it waits: when it ends, either the text of its beginning is in a file
    and every difference of the model as it now is counts as saved, or nothing is written and the problem is reported. So the text
    on disk is that of the model if and only if the model is not changed meanwhile. *)
Theorem C90_saves_the_beginning_partial :
  forall s f stack v m l0 vs l1 e ok l2,
  asks s v m -> happens (mk_loop s f stack) v = Ok l0 -> (length stack < length (lp_stack l0))%nat ->                (* a save has begun *)
  passes l0 vs = Ok l1 -> (forall k, moment l0 vs k -> (length stack < length (lp_stack k))%nat) ->                  (* it is still under way *)
  happens l1 (Return e ok) = Ok l2 -> (length (lp_stack l2) <= length stack)%nat ->                                  (* it ends *)
  exists x t, model_of s m = Ok x /\ text_to_save x = Ok t /\
    ((exists u x1 y, lp_files l2 = put_file (lp_files l1) u t /\ model_of (lp_list l1) m = Ok x1 /\ model_of (lp_list l2) m = Ok y /\ has_unsaved y = Ok false /\
        forall t1, text_to_save x1 = Ok t1 -> text_to_save y = Ok t1) \/
     (lp_files l2 = lp_files l1 /\ ml_heap (lp_list l2) = ml_heap (lp_list l1) /\ exists g, ml_out (lp_list l2) = ml_out (lp_list l1) ++ Error SaveProblem :: g)).
Proof.
  intros s f stack v m l0 vs l1 e ok l2 A H L P U R D. apply asked_frame with (m := m) in H as (w & W1 & W2 & W3 & x & X1 & X2); [|exact A|exact L]. cbn [lp_list lp_stack] in *.
  exists x, (sv_text w). split; [exact X1|]. split; [exact X2|].
  assert (K : exists w', above (length stack) w' (lp_stack l1) /\ sv_by w' = sv_by w /\ sv_model w' = sv_model w /\ sv_text w' = sv_text w).
  { clear R D. revert l1 P. induction vs as [|z vs IH] using rev_ind; intros l1 P.
    - injection P as <-. exists w. split; [exists [], stack; auto|auto].
    - pose proof P as ALL. apply last_event in P as (l & P & E). destruct (IH (fun k M => U k (moment_before _ _ _ _ M)) _ P) as (w' & Q1 & Q2 & Q3 & Q4).
      destruct (above_step _ w' _ _ ltac:(now rewrite Q2) Q1 (happens_moves _ _ _ E) (U _ (moment_now _ _ _ ALL))) as (w2 & R1 & R2 & R3 & R4). exists w2. split; [exact R1|]. split; [congruence|]. split; congruence. }
  destruct K as (w' & (top & low & Q1 & QL) & Q2 & Q3 & Q4). rewrite <- Q4. pose proof (U _ (moment_now _ _ _ P)) as LL. apply happens_moves in R.
  destruct R as [B _|z B _ _|z st place r B B' _ _ _ _|z r B B' C]; try (exfalso; rewrite B in *; cbn [length] in *; lia); [exfalso; rewrite B' in *; rewrite B in *; cbn [length] in *; lia|].
  assert (z = w') as ->.
  { rewrite Q1 in B. destruct top as [|t top]; [now injection B|]. exfalso. injection B as -> <-. destruct B' as [B'|(all & rest & y & _ & B' & _)]; rewrite B' in D; cbn [length] in D; rewrite app_length in D; cbn [length] in D; lia. }
  destruct C as [(_ & C1 & x1 & st & C2 & C3 & C4)|C]; [left|right; exact C]. rewrite Q3, W3 in C2, C4. exists (sv_place w'), x1, (with_store x1 st). split; [exact C1|]. split; [exact C2|]. split; [exact C4|]. split; [|now apply marked_text].
  unfold has_unsaved. destruct (marked_all _ _ _ C3) as (ds & X & Y). change (dm_store (with_store x1 st)) with st. change (dm_diffs (with_store x1 st)) with (dm_diffs x1). rewrite X. cbn [bind]. now rewrite Y.
Qed.
Print Assumptions C90_saves_the_beginning_partial.
