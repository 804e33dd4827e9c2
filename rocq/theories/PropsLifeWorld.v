(** C86: when files change. *)
From Coq Require Import String.
From Verif Require Import Base QtStr Diff Save Parser SpecUnified Blend Info ModelList Life World Rounds LifeWorld SpecList PropsRecreate PKin PWorld PropsList PropsWorld PropsLife PropsWorkflow.
From Verif Require PLevTable PHeaders.
Local Open Scope Z_scope.

(** A call that asks for saving. *)
Definition asks_to_save (h : happening) : Prop := match h with HSaveSelected _ | HSaveModel _ _ | HSaveAll _ => True | _ => False end.
Lemma within_dec i url : within i url \/ ~ within i url.
Proof.
  unfold within. destruct (in_mode i); try (destruct (list_eq_dec N.eq_dec url (in_destination i)); [now left|now right]).
  destruct (starts_with (in_destination i) url) eqn:SW; [left; apply PHeaders.starts_with_app in SW as [x ->]; eauto|]. right. intros [x ->].
  rewrite (proj2 (PHeaders.starts_with_app _ _) (ex_intro _ x eq_refl)) in SW. discriminate.
Qed.
Lemma step_writes o s f h s' f' : occur_on o s f h = Ok (s', f') ->
  forall url, f' url <> f url -> asks_to_save h /\ exists i, ml_info s = Some i /\ within i url.
Proof.
  intros H url D.
  assert (Q : (do s <- occur (outside_on o f) s h; Ok (s, f)) = Ok (s', f') -> False).
  { intros X. step X. injection X as _ <-. now apply D. }
  assert (K : forall i, (forall u, ~ within i u -> f' u = f u) -> within i url).
  { intros i U. destruct (within_dec i url) as [W|W]; [exact W|]. exfalso. apply D. now apply U. }
  destruct h; cbn [occur_on] in H; try (destruct (Q H)); (split; [exact I|]); clear Q.
  - unfold slot_save_on in H. destruct (ml_sel s); [|injection H as <- <-; congruence]. unfold the_info in H. destruct (ml_info s) as [i|] eqn:EI; [|discriminate]. cbn [bind] in H. step H. step H. injection H as <- <-.
    destruct a as [[s1 f1] b1]. cbn [fst snd] in *. destruct (save_model_within _ _ _ _ _ _ _ _ EI E) as [_ U]. eauto.
  - step H. destruct a as [[s1 f1] b1]. injection H as <- <-. assert (EI : exists i, ml_info s = Some i).
    { unfold save_model_on in E. step E. unfold the_info in E. destruct (ml_info s); [eauto|discriminate]. }
    destruct EI as [i EI]. destruct (save_model_within _ _ _ _ _ _ _ _ EI E) as [_ U]. eauto.
  - step H. destruct a as [[s1 f1] b1]. injection H as <- <-. unfold save_all_on in E. destruct (Z.eqb _ _); [injection E as <- <- _; congruence|]. step E. destruct (ml_info s) as [i|] eqn:EI.
    + destruct (save_models_within _ _ _ _ _ _ _ _ _ EI E) as [_ U]. eauto.
    + exfalso. destruct a as [|m l]; cbn [save_models_on] in E; [injection E as <- <- _; congruence|]. step E. unfold save_model_on in E1. step E1. unfold the_info in E1. rewrite EI in E1. discriminate.
Qed.
(** However a file differs in the end: there was a moment at which saving was asked for and the file was in the place that the
    information of that moment names as the destination. *)
Theorem C86_files_change_only_when_saved :
  forall hs s f s' f' url, life_on s f hs = Ok (s', f') -> f' url <> f url ->
  exists before o h after s1 f1 i, hs = before ++ (o, h) :: after /\ life_on s f before = Ok (s1, f1) /\ f1 url = f url /\
    asks_to_save h /\ ml_info s1 = Some i /\ within i url.
Proof.
  intros hs. induction hs as [|[o h] hs IH]; intros s f s' f' url H D; cbn [life_on] in H; [injection H as <- <-; congruence|]. step H. destruct a as [s1 f1]. cbn [fst snd] in H.
  assert (DE : f1 url = f url \/ f1 url <> f url).
  { destruct (f1 url) as [t|], (f url) as [u|]; try (right; discriminate); [|now left]. destruct (list_eq_dec N.eq_dec t u) as [->|N]; [now left|right; congruence]. }
  destruct DE as [DE|DE].
  - destruct (IH s1 f1 s' f' url H) as (before & o' & h' & after & s2 & f2 & i & -> & L & U & R); [congruence|].
    exists ((o, h) :: before), o', h', after, s2, f2, i. split; [reflexivity|]. split; [cbn [life_on]; rewrite E; exact L|]. split; [congruence|exact R].
  - destruct (step_writes _ _ _ _ _ _ E url DE) as (A & i & I & W). exists [], o, h, hs, s, f, i. split; [reflexivity|]. split; [reflexivity|]. auto.
Qed.
Print Assumptions C86_files_change_only_when_saved.
(** Looking at the files does not change what the list does: the list lives as it does without them when the same things happen, what is
    read being in the files and the mode of the list deciding whether a directory may have to be made for a save. *)
Inductive same_thing (i : option info) : happening -> happening -> Prop :=
| same_selected e : same_thing i (HSaveSelected e) (HSaveSelected (match i with Some i => env_in i e | None => e end))
| same_model e m : same_thing i (HSaveModel e m) (HSaveModel (match i with Some i => env_in i e | None => e end) m)
| same_all envs : same_thing i (HSaveAll envs) (HSaveAll (fun k => match i with Some i => env_in i (envs k) | None => envs k end))
| same_other h : ~ asks_to_save h -> same_thing i h h.
Inductive lives_as : mlist -> files -> list (outside * happening) -> list (outside * happening) -> Prop :=
| la_nil s f : lives_as s f [] []
| la_cons s f o h o' h' s1 f1 hs hs' : same_thing (ml_info s) h h' -> o' = outside_on o f -> occur_on o s f h = Ok (s1, f1) -> lives_as s1 f1 hs hs' ->
    lives_as s f ((o, h) :: hs) ((o', h') :: hs').
Theorem C86_same_list :
  forall hs s f s' f', life_on s f hs = Ok (s', f') -> exists hs', lives_as s f hs hs' /\ life s hs' = Ok s'.
Proof.
  induction hs as [|[o h] hs IH]; intros s f s' f' H; cbn [life_on] in H; [injection H as <- <-; exists []; split; [constructor|reflexivity]|]. step H. destruct a as [s1 f1]. cbn [fst snd] in H.
  destruct (IH _ _ _ _ H) as (hs' & LA & E').
  enough (G : exists h', same_thing (ml_info s) h h' /\ occur (outside_on o f) s h' = Ok s1).
  { destruct G as (h' & ST & G). exists ((outside_on o f, h') :: hs'). split; [econstructor; eauto|]. cbn [life]. rewrite G. exact E'. }
  assert (Q : ~ asks_to_save h -> (do s <- occur (outside_on o f) s h; Ok (s, f)) = Ok (s1, f1) -> exists h', same_thing (ml_info s) h h' /\ occur (outside_on o f) s h' = Ok s1).
  { intros NA X. step X. injection X as <- _. exists h. split; [now constructor|exact E0]. }
  destruct h; cbn [occur_on] in E; try (exact (Q (fun x => x) E)); clear Q.
  - eexists. split; [constructor|]. cbn [occur]. unfold slot_save_on in E. destruct (ml_sel s) eqn:SL; [|injection E as <- _; unfold slot_save; now rewrite SL].
    unfold the_info in E. destruct (ml_info s) as [i|]; [|discriminate]. cbn [bind] in E. step E. step E. injection E as <- _. first [exact E1|reflexivity].
  - eexists. split; [constructor|]. cbn [occur]. step E. destruct a as [[s2 f2] b2]. injection E as <- _. unfold save_model_on in E0. step E0. unfold the_info in E0. destruct (ml_info s) as [i|]; [|discriminate]. cbn [bind] in E0. step E0. step E0. injection E0 as <- _ _. first [now rewrite E2|reflexivity].
  - eexists. split; [constructor|]. cbn [occur]. step E. destruct a as [[s2 f2] b2]. injection E as <- _. unfold save_all_on, save_all_models in *. destruct (Z.eqb _ _) eqn:Z0; [injection E0 as <- _ _; reflexivity|]. step E0. cbn [bind].
    destruct (ml_info s) as [i|] eqn:EI.
    + enough (G : forall l k s f s2 f2 b2, ml_info s = Some i -> save_models_on envs k s f l = Ok (s2, f2, b2) -> save_models (fun k => env_in i (envs k)) k s l = Ok (s2, b2)) by (now rewrite (G _ _ _ _ _ _ _ EI E0)).
      clear. induction l as [|m l IH]; intros k s f s2 f2 b2 EI H; cbn [save_models_on save_models] in *; [injection H as <- _ <-; reflexivity|]. step H. destruct a as [[s3 f3] b3].
      destruct (save_model_within _ _ _ _ _ _ _ _ EI E) as [EI1 _]. unfold save_model_on in E. step E. unfold the_info in E. rewrite EI in E. cbn [bind] in E. step E. step E. destruct a1 as [s4 b4]. cbn [fst snd] in E. injection E as -> _ ->. cbn [bind].
      destruct b3; [eapply IH; eauto|injection H as <- _ <-; reflexivity].
    + destruct a as [|m l]; cbn [save_models_on save_models] in *; [injection E0 as <- _ _; reflexivity|]. step E0. unfold save_model_on in E1. step E1. unfold the_info in E1. rewrite EI in E1. discriminate.
Qed.
Print Assumptions C86_same_list.
(** saveAll() tells whether everything was saved: nothing can be when no model is listed; otherwise the models are saved in their
    order, up to the first whose save fails. *)
Inductive one_by_one (i : info) (envs : nat -> save_env) : nat -> mlist -> list nat -> mlist -> bool -> Prop :=
| ob_end k s : one_by_one i envs k s [] s true
| ob_fail k s m l s' : save_model (env_in i (envs k)) s m = Ok (s', false) -> one_by_one i envs k s (m :: l) s' false
| ob_next k s m l s1 s' b : save_model (env_in i (envs k)) s m = Ok (s1, true) -> one_by_one i envs (S k) s1 l s' b -> one_by_one i envs k s (m :: l) s' b.
Theorem C86_saving_everything :
  forall envs s f s' f' b, save_all_on envs s f = Ok (s', f', b) ->
  ((ml_models s = None \/ ml_models s = Some []) -> s' = s /\ f' = f /\ b = false) /\
  (forall m l, ml_models s = Some (m :: l) -> exists i, ml_info s = Some i /\ one_by_one i envs 0 s (m :: l) s' b).
Proof.
  intros envs s f s' f' b H. unfold save_all_on, model_count, the_list in H. split.
  - intros [E|E]; rewrite E in H; cbn in H; injection H as <- <- <-; auto.
  - intros m l E. rewrite E in H. cbn [length] in H. destruct (Z.eqb_spec (Z.of_nat (S (length l))) 0) as [X|_]; [lia|]. cbn [bind] in H.
    assert (EI : exists i, ml_info s = Some i).
    { cbn [save_models_on] in H. step H. unfold save_model_on in E0. step E0. unfold the_info in E0. destruct (ml_info s); [eauto|discriminate]. }
    destruct EI as [i EI]. exists i. split; [exact EI|]. clear E. revert H EI. generalize 0%nat as k. generalize (m :: l) as ms. clear m l. intros ms. revert s f. 
    induction ms as [|m ms IH]; intros s f k H EI; cbn [save_models_on] in H; [injection H as <- <- <-; constructor|]. step H. destruct a as [[s1 f1] b1].
    destruct (save_model_within _ _ _ _ _ _ _ _ EI E) as [EI1 _]. unfold save_model_on in E. step E. unfold the_info in E. rewrite EI in E. cbn [bind] in E. step E. step E. destruct a1 as [s2 b2].
    cbn [fst snd] in E. injection E as <- _ <-. destruct b2.
    + eapply ob_next; [exact E2|]. eapply IH; eauto.
    + injection H as <- _ <-. now apply ob_fail.
Qed.
Print Assumptions C86_saving_everything.
(** Two files compared, the first change saved, then a swap and nothing more: only the destination changed. *)
Example C86_example : exists s f, life_on (new_mlist true) disk [(here, HInfo two_urls); (here, HRefresh); (here, HFinished true NormalExit (doc_text canonical_doc) []); (here, HActApply); (here, HSaveSelected good); (here, HSwap)] = Ok (s, f) /\
  f (lit "/new") <> disk (lit "/new") /\ f (lit "/old") = disk (lit "/old").
Proof.
  set (r := life_on _ _ _). assert (R : match r with Ok (s, f) => match f (lit "/new"), disk (lit "/new") with Some a, Some b => str_eqb a b = false | _, _ => False end /\ f (lit "/old") = disk (lit "/old") | _ => False end) by (vm_compute; split; reflexivity).
  destruct r as [[s f]| |]; [|destruct R..]. exists s, f. split; [reflexivity|]. destruct R as [R1 R2]. split; [|exact R2]. intros Q. rewrite Q in R1. destruct (disk (lit "/new")) as [b|]; [|exact R1].
  rewrite (proj2 (PLevTable.str_eqb_ok b b) eq_refl) in R1. discriminate.
Qed.
Example C86_all_example : match life_on (new_mlist true) disk [(here, HInfo two_urls); (here, HRefresh); (here, HFinished true NormalExit (doc_text canonical_doc) []); (here, HActApply)] with
  | Ok (s, f) => match save_all_on (fun _ => good) s f with Ok (_, _, b) => b = true | _ => False end
  | _ => False
  end.
Proof. vm_compute. reflexivity. Qed.
