(** C99: what a listener knows. *)
From Coq Require Import String Permutation.
From Verif Require Import Base QtStr Diff Save Parser Blend Info ModelList Life SpecTold PKin PFar PList PropsLife PropsList PropsWorld PropsWorkflow.
Local Open Scope Z_scope.

Lemma heard_emit g s : heard (emit g s) = hear (heard s) g.
Proof. unfold heard, emit. cbn. now rewrite fold_left_app. Qed.
(** Nothing is said and the list stays; also the selection stays. *)
Definition mute (a b : mlist) : Prop := heard b = heard a /\ ml_models b = ml_models a.
Definition still (a b : mlist) : Prop := mute a b /\ ml_sel b = ml_sel a /\ ml_diff b = ml_diff a.
Lemma mute_refl s : mute s s. Proof. split; reflexivity. Qed.
Lemma still_refl s : still s s. Proof. repeat split. Qed.
Lemma mute_trans a b c : mute a b -> mute b c -> mute a c. Proof. unfold mute. intuition congruence. Qed.
Lemma still_trans a b c : still a b -> still b c -> still a c. Proof. unfold still, mute. intuition congruence. Qed.
Lemma still_put s m x : still s (put_model s m x). Proof. repeat split. Qed.
Lemma still_act s a : still s (with_act s a). Proof. repeat split. Qed.
Lemma still_update s s' : update_actions s = Ok s' -> still s s'.
Proof.
  unfold update_actions. intros H. destruct (ml_models s), (ml_sel s), (ml_diff s); try (injection H as <-; apply still_act). step H. step H. step H. step H. injection H as <-. apply still_act.
Qed.
Lemma still_bar s s' : status_bar s = Ok s' -> still s s'.
Proof. unfold status_bar. intros H. step H. step H. destruct a0. step H. injection H as <-. split; [split; [apply heard_emit|reflexivity]|]. split; reflexivity. Qed.
Lemma first_mute s s' : first_model s = Ok s' -> mute s s' /\ ml_diff s' = ml_diff s.
Proof. unfold first_model. intros H. step H. destruct a; [discriminate|]. injection H as <-. repeat split. Qed.
Lemma last_mute s s' : last_model s = Ok s' -> mute s s' /\ ml_diff s' = ml_diff s.
Proof. unfold last_model. intros H. step H. destruct (rev a); [discriminate|]. injection H as <-. repeat split. Qed.
Lemma next_mute s s' : next_model s = Ok s' -> mute s s' /\ ml_diff s' = ml_diff s.
Proof. unfold next_model. intros H. step H. destruct (Z.ltb _ _); [step H|]; injection H as <-; repeat split. Qed.
Lemma prev_mute s s' : prev_model s = Ok s' -> mute s s' /\ ml_diff s' = ml_diff s.
Proof. unfold prev_model. intros H. destruct (Z.ltb _ _); [step H; destruct (Z.ltb _ _); [step H|]|]; injection H as <-; repeat split. Qed.
Lemma to_first_mute s s' : to_first_difference s = Ok s' -> mute s s' /\ ml_sel s' = ml_sel s.
Proof. unfold to_first_difference. intros H. step H. destruct a as [m x]. step H. destruct a as [y k]. injection H as <-. repeat split. Qed.
Lemma to_last_mute s s' : to_last_difference s = Ok s' -> mute s s' /\ ml_sel s' = ml_sel s.
Proof. unfold to_last_difference. intros H. step H. destruct a as [m x]. step H. destruct a as [y k]. injection H as <-. repeat split. Qed.
Lemma still_select s m d s' b : select_in s m d = Ok (s', b) -> still s s'.
Proof.
  unfold select_in. intros H. step H. destruct d as [[m' k]|]; [destruct (Nat.eqb m m')|];
    try (match type of H with (let '(_, _) := ?e in _) = _ => destruct e end); injection H as <- _; first [apply still_put|apply still_refl].
Qed.
Lemma still_set_model s m s' b : set_selected_model s m = Ok (s', b) -> m = ml_sel s -> b = true /\ still s s'.
Proof.
  unfold set_selected_model. intros H ->. assert (Q : sel_eqb (ml_sel s) (ml_sel s) = true) by (destruct (ml_sel s); cbn; [apply Nat.eqb_refl|reflexivity]). rewrite Q in H. step H. injection H as <- <-. split; [reflexivity|now apply still_update].
Qed.
Lemma still_save e s m s' b : save_model e s m = Ok (s', b) -> still s s'.
Proof. unfold save_model. intros H. step H. step H. injection H as <- _. destruct (so_error a0); [|apply still_put]. split; [split; [rewrite heard_emit|]|split]; reflexivity. Qed.
Lemma still_saves envs : forall l k s s' b, save_models envs k s l = Ok (s', b) -> still s s'.
Proof.
  induction l as [|m l IH]; intros k s s' b H; cbn [save_models] in H; [injection H as <- _; apply still_refl|]. step H. destruct a as [s1 ok]. pose proof (still_save _ _ _ _ _ E) as Q.
  destruct ok; [eapply still_trans; [exact Q|eapply IH; exact H]|injection H as <- _; exact Q].
Qed.
Lemma still_apply s b s' : slot_apply_difference s b = Ok s' -> still s s'.
Proof. unfold slot_apply_difference. intros H. step H. destruct a as [m x]. step H. injection H as <-. split; [split; [rewrite heard_emit|]|split]; reflexivity. Qed.
Lemma still_apply_all s b s' : slot_apply_all s b = Ok s' -> still s s'.
Proof. unfold slot_apply_all. intros H. step H. destruct a as [m x]. step H. injection H as <-. split; [split; [rewrite heard_emit|]|split]; reflexivity. Qed.
Lemma still_depth i : forall l s s', depth_and_applied i s l = Ok s' -> still s s'.
Proof. induction l as [|m l IH]; intros s s' H; cbn [depth_and_applied] in H; [injection H as <-; apply still_refl|]. step H. step H. eapply still_trans; [|eapply IH; exact H]. apply still_put. Qed.
Lemma mute_blend_model s m t s' : blend_model s m t = Ok s' -> mute s s'.
Proof. unfold blend_model. intros H. step H. step H. step H. destruct (first_mute _ _ E1) as [Q _]. destruct (to_first_mute _ _ H) as [Q' _]. eapply mute_trans; [|exact Q']. eapply mute_trans; [apply still_put|exact Q]. Qed.
Lemma mute_blend_dir o url : forall l s b s' b', blend_dir o url s l b = Ok (s', b') -> mute s s'.
Proof. induction l as [|m l IH]; intros s b s' b' H; cbn [blend_dir] in H; [injection H as <- _; apply mute_refl|]. step H. step H. eapply mute_trans; [eapply mute_blend_model; exact E0|eapply IH; exact H]. Qed.
Lemma mute_blend o s url s' b : blend_original o s url = Ok (s', b) -> mute s s'.
Proof.
  unfold blend_original. intros H. destruct (os_is_dir o url); [step H; now apply mute_blend_dir in H|]. destruct (os_is_file o url); [|injection H as <- _; apply mute_refl].
  step H. step H. step H. injection H as <- _. now apply mute_blend_model in E1.
Qed.
(** * What is told *)
Lemma told_show s s' : show s = Ok s' -> told s'.
Proof. unfold show, the_list. intros H. destruct (ml_models s) as [l|] eqn:M; [|discriminate]. cbn [bind] in H. injection H as <-. unfold told. rewrite !heard_emit. cbn. now rewrite M. Qed.
Lemma told_still s s' : still s s' -> (told s' <-> told s).
Proof. intros ((H & M) & A & B). unfold told. now rewrite H, M, A, B. Qed.
Lemma told_mute s s' : mute s s' -> told s -> (told s' <-> ml_sel s' = ml_sel s /\ ml_diff s' = ml_diff s).
Proof.
  intros (H & M) T. unfold told in *. rewrite H, M, T. split; [intros Q; injection Q as <- <-; auto|intros [-> ->]; reflexivity].
Qed.
Lemma heard_clear s : heard (clear s) = mk_picture (ml_models (clear s)) (pc_model (heard s)) (pc_difference (heard s)).
Proof. unfold clear. rewrite heard_emit. destruct (ml_models s) eqn:M; cbn; now rewrite ?M. Qed.
Lemma told_clear s : told s -> told (clear s).
Proof. unfold told. intros T. rewrite heard_clear, T. unfold clear. destruct (ml_models s); reflexivity. Qed.
Lemma told_mode s : told s -> told (compare_mode s).
Proof. intros T. exact (proj2 (told_still (clear s) (compare_mode s) (conj (conj (heard_emit _ _) eq_refl) (conj eq_refl eq_refl))) (told_clear s T)). Qed.
(** setSelection(model, difference) is said, then the status bar and the actions follow. *)
Lemma tells g s s' : (do s <- status_bar (emit g s); update_actions s) = Ok s' -> heard s' = hear (heard s) g /\ ml_models s' = ml_models s /\ ml_sel s' = ml_sel s /\ ml_diff s' = ml_diff s.
Proof. intros H. step H. pose proof (still_trans _ _ _ (still_bar _ _ E) (still_update _ _ H)) as ((A & B) & C & D). rewrite A, heard_emit. auto. Qed.
Lemma told_announce s s' : announce s = Ok s' -> pc_models (heard s) = ml_models s -> told s'.
Proof. unfold announce. intros H P. destruct (tells _ _ _ H) as (A & B & C & D). unfold told. rewrite A, B, C, D. cbn. now rewrite P. Qed.
Lemma told_announce_difference s s' : announce_difference s = Ok s' -> pc_models (heard s) = ml_models s -> pc_model (heard s) = ml_sel s -> told s'.
Proof. unfold announce_difference. intros H P Q. destruct (tells _ _ _ H) as (A & B & C & D). unfold told. rewrite A, B, C, D. cbn. now rewrite P, Q. Qed.
Lemma list_mute s s' : mute s s' -> pc_models (heard s) = ml_models s -> pc_models (heard s') = ml_models s'.
Proof. intros [A B]. now rewrite A, B. Qed.
Lemma told_list s : told s -> pc_models (heard s) = ml_models s. Proof. unfold told. now intros ->. Qed.
Lemma told_step_model (f : mlist -> res mlist) (g : mlist -> res mlist) s s' :
  (forall a b, f a = Ok b -> mute a b /\ ml_diff b = ml_diff a) -> (forall a b, g a = Ok b -> mute a b /\ ml_diff b = ml_diff a) ->
  (do s <- f s; do s <- (match ml_sel s with Some _ => Ok s | None => g s end); do s <- to_first_difference s; announce s) = Ok s' -> told s -> told s'.
Proof.
  intros F G H T. step H. destruct (F _ _ E) as [M1 _]. assert (X : exists b, (do s <- to_first_difference b; announce s) = Ok s' /\ mute a b).
  { destruct (ml_sel a); [exists a; split; [exact H|apply mute_refl]|]. step H. exists a0. split; [exact H|]. apply (G _ _ E0). }
  destruct X as (b & X & M2). step X. destruct (to_first_mute _ _ E0) as [M3 _]. eapply told_announce; [exact X|]. apply (list_mute b); [exact M3|]. apply (list_mute a); [exact M2|]. apply (list_mute s); [exact M1|]. now apply told_list.
Qed.
Lemma told_next s s' : slot_next_difference s = Ok s' -> told s -> told s'.
Proof.
  unfold slot_next_difference. intros H T. step H. destruct a as [m x]. step H. destruct a as [y [k|]].
  - eapply told_announce_difference; [exact H|cbn; now apply told_list|]. change (pc_model (heard s) = ml_sel s). unfold told in T. now rewrite T.
  - step H. destruct (next_mute _ _ E1) as [M1 _]. pose proof (list_mute _ _ M1 (told_list _ T)) as P. destruct (ml_sel a).
    + step H. destruct (to_first_mute _ _ E2) as [M2 _]. eapply told_announce; [exact H|]. now apply (list_mute a).
    + step H. destruct (last_mute _ _ E2) as [M2 _]. step H. destruct (to_last_mute _ _ E3) as [M3 _]. eapply told_announce; [exact H|]. apply (list_mute a0); [exact M3|]. now apply (list_mute a).
Qed.
Lemma told_previous s s' : slot_previous_difference s = Ok s' -> told s -> told s'.
Proof.
  unfold slot_previous_difference. intros H T. step H. destruct a as [m x]. step H. destruct a as [y [k|]].
  - eapply told_announce_difference; [exact H|cbn; now apply told_list|]. change (pc_model (heard s) = ml_sel s). unfold told in T. now rewrite T.
  - step H. destruct (prev_mute _ _ E1) as [M1 _]. pose proof (list_mute _ _ M1 (told_list _ T)) as P. destruct (ml_sel a).
    + step H. destruct (to_last_mute _ _ E2) as [M2 _]. eapply told_announce; [exact H|]. now apply (list_mute a).
    + step H. destruct (first_mute _ _ E2) as [M2 _]. step H. destruct (to_first_mute _ _ E3) as [M3 _]. eapply told_announce; [exact H|]. apply (list_mute a0); [exact M3|]. now apply (list_mute a).
Qed.

(** * Selecting *)
Lemma select_there s m k x s' b : select_in s m (Some (m, k)) = Ok (s', b) -> model_of s m = Ok x -> In k (dm_diffs x) -> b = true /\ exists y, model_of s' m = Ok y /\ dm_diffs y = dm_diffs x.
Proof.
  unfold select_in. intros H X IN. rewrite X in H. cbn [bind] in H. rewrite Nat.eqb_refl in H. unfold set_selected_difference in H.
  assert (F : exists j, find_id k (dm_diffs x) = Some j).
  { clear -IN. induction (dm_diffs x) as [|j l IH]; [destruct IN|]. cbn [find_id]. destruct (Nat.eqb k j) eqn:E; [eauto|]. destruct IN as [->|IN]; [rewrite Nat.eqb_refl in E; discriminate|]. destruct (IH IN) as [n ->]. eauto. }
  destruct F as [j F]. destruct (sel_eqb _ _); [|rewrite F in H]; injection H as <- <-; (split; [reflexivity|]); (eexists; split; [eapply model_put; exact X|reflexivity]).
Qed.
Lemma update_heap s s' : update_actions s = Ok s' -> ml_heap s' = ml_heap s.
Proof. unfold update_actions. intros H. destruct (ml_models s), (ml_sel s), (ml_diff s); try (injection H as <-; reflexivity). step H. step H. step H. step H. injection H as <-. reflexivity. Qed.
Lemma selected_pair s m d s' : slot_selection_changed s m d = Ok s' ->
  heard s' = mk_picture (pc_models (heard s)) m d /\ ml_models s' = ml_models s /\ ml_sel s' = m /\ (difference_of_model s m d -> ml_diff s' = d).
Proof.
  unfold slot_selection_changed. intros H. step H. set (s0 := with_diff (with_index (with_sel s m) (index_in m a)) d) in *. destruct m as [m'|]; [|discriminate]. step H. destruct a0 as [s1 b1]. cbn [fst] in H.
  pose proof (still_select _ _ _ _ _ E0) as ((A1 & A2) & A3 & A4). step H. destruct a0 as [s2 ok]. destruct (still_set_model _ _ _ _ E1 eq_refl) as [-> ((B1 & B2) & B3 & B4)]. cbn beta iota in H.
  rewrite B3, A3 in H. cbn in H. step H.
  assert (X : mute s2 a0 /\ ml_sel a0 = ml_sel s2 /\ (difference_of_model s (Some m') d -> ml_diff a0 = d)).
  { step E2. destruct a1 as [s3 b3]. pose proof (still_select _ _ _ _ _ E3) as (C1 & C3 & C4). destruct b3.
    - injection E2 as <-. split; [exact C1|]. split; [exact C3|]. intros _. rewrite C4, B4, A4. reflexivity.
    - destruct (to_first_mute _ _ E2) as [D1 D2]. split; [eapply mute_trans; eauto|]. split; [congruence|]. intros (m1 & k & x & Q & QD & MX & IN). exfalso. injection Q as <-.
      rewrite B4, A4 in E3. change (ml_diff s0) with d in E3. rewrite QD in E0, E3. destruct (select_there _ _ _ x _ _ E0 MX IN) as (_ & y & Y & DY).
      assert (Y2 : model_of s2 m' = Ok y). { unfold set_selected_model in E1. assert (Q : sel_eqb (ml_sel s1) (ml_sel s1) = true) by (destruct (ml_sel s1); cbn; [apply Nat.eqb_refl|reflexivity]). rewrite Q in E1. step E1. injection E1 as <-. unfold model_of. rewrite (update_heap _ _ E4). exact Y. }
      rewrite <- DY in IN. destruct (select_there _ _ _ y _ _ E3 Y2 IN) as [Q _]. discriminate. }
  destruct X as (X1 & X2 & X3). destruct (tells _ _ _ H) as (Y1 & Y2 & Y3 & Y4). destruct X1 as [X0 X1]. split; [rewrite Y1, X0, B1, A1; reflexivity|]. split; [rewrite Y2, X1, B2, A2; reflexivity|].
  split; [rewrite Y3, X2, B3, A3; reflexivity|]. intros Q. rewrite Y4. now apply X3.
Qed.
Lemma selected_one s d s' : slot_difference_changed s d = Ok s' ->
  heard s' = mk_picture (pc_models (heard s)) (pc_model (heard s)) d /\ ml_models s' = ml_models s /\ ml_sel s' = ml_sel s /\ (difference_of_model s (ml_sel s) d -> ml_diff s' = d).
Proof.
  unfold slot_difference_changed. intros H. cbn [with_diff ml_sel] in H. destruct (ml_sel s) as [m|] eqn:SL; [|discriminate]. step H. destruct a as [s1 b1]. pose proof (still_select _ _ _ _ _ E) as ((A1 & A2) & A3 & A4). step H.
  assert (X : mute s1 a /\ ml_sel a = ml_sel s1 /\ (difference_of_model s (Some m) d -> ml_diff a = d)).
  { destruct b1; [injection E0 as <-; split; [apply mute_refl|]; split; [reflexivity|]; intros _; rewrite A4; reflexivity|]. destruct (to_first_mute _ _ E0) as [D1 D2]. split; [exact D1|]. split; [exact D2|].
    intros (m1 & k & x & Q & -> & MX & IN). injection Q as <-. destruct (select_there _ _ _ x _ _ E MX IN) as [Q _]. discriminate. }
  destruct X as ([X0 X1] & X2 & X3). destruct (tells _ _ _ H) as (Y1 & Y2 & Y3 & Y4). split; [rewrite Y1, X0, A1; reflexivity|]. split; [rewrite Y2, X1, A2; reflexivity|].
  split; [rewrite Y3, X2, A3; exact SL|]. intros Q. rewrite Y4. now apply X3.
Qed.

(** * Reading *)
Lemma read_parts o s diff s' b : parse_diff_output o s diff = Ok (s', b) -> heard s' = heard s /\
  if b then exists m l, ml_models s' = Some (m :: l) /\ (length (ml_heap s) <= m)%nat else ml_models s' = None /\ ml_sel s' = ml_sel s /\ ml_diff s' = ml_diff s.
Proof.
  unfold parse_diff_output. intros H. step H. rename a into p. cbn [emit ml_models ml_heap] in H.
  set (h := match ml_models s with Some l => delete_all l (ml_heap s) | None => ml_heap s end) in *.
  assert (LH : length h = length (ml_heap s)) by (unfold h; destruct (ml_models s); [apply delete_all_length|reflexivity]).
  assert (HE : forall s1, ml_out s1 = ml_out s ++ [DiffString diff] -> heard s1 = heard s) by (intros s1 Q; unfold heard; rewrite Q, fold_left_app; reflexivity).
  destruct (po_models p) as [ms|] eqn:PM; cbn [with_models] in H.
  - step H. cbn [with_info ml_models with_models] in H. step H. step H. step H. injection H as <- <-. destruct (first_mute _ _ E1) as [[A1 A2] _]. destruct (to_first_mute _ _ E2) as [[B1 B2] _]. rewrite heard_emit. cbn [hear].
    change (ml_models (emit ?g ?x)) with (ml_models x). rewrite B1, B2, A1, A2. split.
    + destruct (po_malformed p); [rewrite heard_emit; cbn [hear]|]; now apply HE.
    + assert (ML : forall s1, ml_models (if po_malformed p then emit (Error Malformed) s1 else s1) = ml_models s1) by (intros s1; destruct (po_malformed p); reflexivity). rewrite ML. cbn [ml_models with_info].
      unfold first_model in E1. step E1. destruct a3 as [|m l]; [discriminate|]. unfold the_list in E4. change (ml_models (with_index ?x _)) with (ml_models x) in E4. rewrite ML in E4. cbn [ml_models with_info] in E4. injection E4 as E4.
      exists m, l. split; [cbn; f_equal; exact E4|]. destruct (length ms); [discriminate|]. cbn [seq] in E4. injection E4 as <- _. lia.
  - step H. cbn [with_info ml_models with_models] in H. injection H as <- <-. split; [now apply HE|]. repeat split.
Qed.
Lemma known_low s l m : known s -> ml_models s = Some l -> In m l -> (m < length (ml_heap s))%nat.
Proof. intros [_ F] M IN. unfold listed in F. rewrite M in F. rewrite Forall_forall in F. apply alive_range. now apply F. Qed.
(** A list that is read while another is known is another one. *)
Lemma other_list s m l : known s -> (length (ml_heap s) <= m)%nat -> ml_models s <> Some (m :: l).
Proof. intros K L M. pose proof (known_low s _ m K M (or_introl eq_refl)). lia. Qed.
Lemma clear_known s : known (clear s).
Proof. unfold known, listed, clear. destruct (ml_models s) eqn:M; cbn; rewrite ?M; split; constructor. Qed.
Lemma opened_text o s diff s' b : parse_and_open o s diff = Ok (s', b) -> told s -> told s' <-> b = true \/ (ml_models s = None /\ ml_models s' = None).
Proof.
  unfold parse_and_open. intros H T. step H. destruct a as [s1 ok]. destruct (read_parts _ _ _ _ _ E) as [R1 R2]. destruct ok.
  - step H. step H. injection H as <- <-. apply told_show in E1. split; [auto|]. intros _. eapply told_still; [|exact E1]. split; [split; [apply heard_emit|reflexivity]|split; reflexivity].
  - injection H as <- <-. destruct R2 as (M & A & B). assert (Q : told (emit (Error NotParsed) s1) <-> ml_models s = None).
    { unfold told. rewrite heard_emit. cbn [hear]. change (ml_models (emit ?g ?x)) with (ml_models x). change (ml_sel (emit ?g ?x)) with (ml_sel x). change (ml_diff (emit ?g ?x)) with (ml_diff x). rewrite R1, M, A, B, heard_emit. cbn [hear]. rewrite heard_clear, T.
      unfold clear. destruct (ml_models s) eqn:ME; cbn; split; intros X; try discriminate X; [reflexivity|]. now rewrite ME. }
    change (ml_models (emit (Error NotParsed) s1)) with (ml_models s1). rewrite Q, M. intuition discriminate.
Qed.
Lemma opened_blend o s s' b : open_and_blend o s = Ok (s', b) -> told s -> told s' <-> b = true \/ (ml_models s = None /\ ml_models s' = None).
Proof.
  unfold open_and_blend. intros H T. step H. step H. destruct a0 as [s1 ok]. destruct (read_parts _ _ _ _ _ E0) as [R1 R2]. destruct ok; cbn [negb] in H.
  - destruct R2 as (m & l & M & LE). step H. step H. step H. step H. destruct a3 as [s3 ok]. pose proof (still_depth _ _ _ _ E3) as ((D1 & D2) & _). pose proof (mute_blend _ _ _ _ _ E4) as (B1 & B2). destruct ok; cbn [negb] in H.
    + step H. step H. injection H as <- <-. apply told_show in E6. tauto.
    + injection H as <- <-. change (ml_models (emit (Error NotApplied) s3)) with (ml_models s3). split; [|intros [X|[_ X]]; [discriminate|]; exfalso; congruence].
      intros X. exfalso. unfold told in X. rewrite heard_emit in X. cbn [hear] in X. change (ml_models (emit ?g ?x)) with (ml_models x) in X. change (ml_sel (emit ?g ?x)) with (ml_sel x) in X. change (ml_diff (emit ?g ?x)) with (ml_diff x) in X.
      rewrite B1, B2, D1, D2, M, R1, heard_clear in X. injection X as X _ _. exact (other_list (clear s) m l (clear_known s) LE X).
  - injection H as <- <-. destruct R2 as (M & A & B). assert (Q : told (emit (Error NoModels) s1) <-> ml_models s = None).
    { unfold told. rewrite heard_emit. cbn [hear]. change (ml_models (emit ?g ?x)) with (ml_models x). change (ml_sel (emit ?g ?x)) with (ml_sel x). change (ml_diff (emit ?g ?x)) with (ml_diff x). rewrite R1, M, A, B, heard_clear, T.
      unfold clear. destruct (ml_models s) eqn:ME; cbn; split; intros X; try discriminate X; [reflexivity|]. now rewrite ME. }
    change (ml_models (emit (Error NoModels) s1)) with (ml_models s1). rewrite Q, M. intuition discriminate.
Qed.
Lemma opened_compare o s s' b : compare o s = Ok (s', b) -> told s -> told s' <-> b = true \/ (ml_models s = None /\ ml_models s' = None).
Proof.
  unfold compare. intros H T. step H. assert (W : forall i, told (with_info s (Some i))) by (intros i; exact T). assert (O : forall i, open_and_blend o (with_info s (Some i)) = Ok (s', b) -> told s' <-> b = true \/ (ml_models s = None /\ ml_models s' = None)) by (intros i Q; exact (opened_blend _ _ _ _ Q (W i))).
  assert (C : forall i, Ok (compare_mode (with_info s (Some i)), true) = Ok (s', b) -> told s' <-> b = true \/ (ml_models s = None /\ ml_models s' = None)).
  { intros i Q. injection Q as <- <-. split; [auto|]. intros _. apply told_mode, W. }
  destruct (_ && _)%bool; [exact (C _ H)|]. destruct (_ && _)%bool; [|destruct (_ && _)%bool; exact (O _ H)]. destruct (_ && _)%bool; [exact (O _ H)|]. destruct (_ && _)%bool; [exact (O _ H)|exact (C _ H)].
Qed.
Lemma ended o s b st out err s' : slot_diff_process_finished o s b st out err = Ok s' -> told s -> told s' <-> (b = false \/ ml_models s' <> None \/ ml_models s = None).
Proof.
  unfold slot_diff_process_finished. intros H T. destruct (negb _); [discriminate|]. step H. injection H as <-. change (told (with_process a false)) with (told a). change (ml_models (with_process a false)) with (ml_models a). destruct b.
  - step E. destruct a0 as [s1 ok]. destruct (read_parts _ _ _ _ _ E0) as [R1 R2]. step E. injection E as <-. assert (Z0 : still a0 (emit (Status FinishedParsing) a0)) by (split; [split; [apply heard_emit|reflexivity]|split; reflexivity]).
    rewrite (told_still _ _ Z0). change (ml_models (emit (Status FinishedParsing) a0)) with (ml_models a0). destruct ok; cbn [negb] in E1.
    + step E1. step E1. step E1. assert (NN : ml_models a0 <> None). { unfold show, the_list in E1. destruct (ml_models a2) eqn:ME; [|discriminate]. cbn [bind] in E1. injection E1 as <-. cbn. congruence. }
      apply told_show in E1. tauto.
    + injection E1 as <-. destruct R2 as (M & A & B). unfold told. rewrite heard_emit. cbn [hear]. change (ml_models (emit ?g ?x)) with (ml_models x). change (ml_sel (emit ?g ?x)) with (ml_sel x). change (ml_diff (emit ?g ?x)) with (ml_diff x). rewrite R1, M, A, B, heard_emit. cbn [hear]. rewrite T. cbn.
      split; [intros X; injection X as X; auto|]. intros [X|[X|X]]; [discriminate|now destruct X|now rewrite X].
  - split; [auto|]. intros _. destruct st; injection E as <-; (eapply told_still; [|exact T]); (split; [split; [apply heard_emit|reflexivity]|split; reflexivity]).
Qed.

(** * C99 *)
(** Exactly when a listener still knows the list and the selection after something has happened, for everything that can. *)
Theorem C99_exactly_when_told :
  forall o s h s', known s -> told s -> occur o s h = Ok s' -> (told s' <-> announced o s h s').
Proof.
  intros o s h s' K T H. assert (Y : forall P : Prop, P -> (P <-> True)) by (intros; split; auto). destruct h; cbn [occur announced] in *.
  - apply Y. eapply told_next; eauto.
  - apply Y. eapply told_previous; eauto.
  - apply Y. exact (told_step_model next_model last_model s s' next_mute last_mute H T).
  - apply Y. exact (told_step_model prev_model first_model s s' prev_mute first_mute H T).
  - destruct (selected_pair _ _ _ _ H) as (A & B & C & _). unfold told. rewrite A, B, C, T. cbn. split; [intros Q; now injection Q|now intros ->].
  - destruct (selected_one _ _ _ H) as (A & B & C & _). unfold told. rewrite A, B, C, T. cbn. split; [intros Q; now injection Q|now intros ->].
  - apply Y. apply still_apply in H. now apply told_still in H as ->.
  - apply Y. apply still_apply_all in H. now apply told_still in H as ->.
  - apply Y. unfold slot_action_apply in H. step H. step H. step H. apply still_update in H. apply told_still in H as ->. apply (told_next _ _ E1). destruct (d_applied a); [now injection E0 as <-|]. apply still_apply in E0. now apply told_still in E0 as ->.
  - apply Y. unfold slot_action_unapply in H. step H. step H. step H. apply still_update in H. apply told_still in H as ->. apply (told_previous _ _ E1). destruct (d_applied a); [|now injection E0 as <-]. apply still_apply in E0. now apply told_still in E0 as ->.
  - apply Y. unfold slot_action_apply_all in H. step H. apply still_update in H. apply told_still in H as ->. apply still_apply_all in E. now apply told_still in E as ->.
  - apply Y. unfold slot_save in H. destruct (ml_sel s) eqn:SL; [|now injection H as <-]. step H. destruct a as [s1 b1]. apply still_save in E. apply told_still in E. injection H as <-.
    assert (Q : still s1 (emit UpdateActions (if ml_has_save s1 then with_act s1 (mk_actions (ac_apply (ml_act s1)) (ac_unapply (ml_act s1)) (ac_apply_all (ml_act s1)) (ac_unapply_all (ml_act s1)) false (ac_previous_file (ml_act s1)) (ac_next_file (ml_act s1)) (ac_previous (ml_act s1)) (ac_next (ml_act s1))) else s1)))
      by (split; [split; [rewrite heard_emit|]|split]; destruct (ml_has_save s1); reflexivity).
    apply told_still in Q as ->. tauto.
  - apply Y. step H. destruct a as [s1 b1]. injection H as <-. apply still_save in E. now apply told_still in E as ->.
  - apply Y. step H. destruct a as [s1 b1]. injection H as <-. unfold save_all_models in E. destruct (Z.eqb _ _); [now injection E as <- _|]. step E. apply still_saves in E. now apply told_still in E as ->.
  - apply Y. unfold set_read_write in H. destruct (Bool.eqb _ _); [now injection H as <-|]. apply still_update in H. now apply told_still in H as ->.
  - apply Y. injection H as <-. exact T.
  - apply Y. injection H as <-. now apply told_clear.
  - apply Y. now apply told_show in H.
  - step H. destruct a as [s1 b]. injection H as <-. cbn. eapply opened_compare; eauto.
  - apply Y. unfold refresh in H. step H. injection H as <-. now apply told_mode.
  - apply Y. unfold swap in H. step H. destruct (in_mode a); injection H as <-; try exact T; now apply told_mode.
  - step H. destruct a as [s1 b]. injection H as <-. destruct file as [|c file]; [apply Y; now injection E as <- _|]. cbn [open_diff] in E. cbn. eapply opened_text; eauto.
  - step H. destruct a as [s1 b]. injection H as <-. cbn. eapply opened_text; eauto.
  - step H. destruct a as [s1 b]. injection H as <-. cbn. eapply opened_blend; eauto.
  - step H. destruct a as [s1 b]. injection H as <-. destruct (read_parts _ _ _ _ _ E) as [R1 R2]. unfold told. cbn [fst]. rewrite R1, T. destruct b.
    + destruct R2 as (m & l & M & LE). rewrite M. split; [|intros [_ X]; discriminate X]. intros X. injection X as X _ _. destruct (other_list s m l K LE X).
    + destruct R2 as (M & A & B). rewrite M, A, B. split; [intros X; injection X as X; auto|intros [X _]; now rewrite X].
  - step H. destruct a as [s1 b]. injection H as <-. apply mute_blend in E. now apply told_mute.
  - rewrite (ended _ _ _ _ _ _ _ H T). destruct success; [|tauto]. intuition discriminate.
  - apply Y. step H. injection H as <-. exact T.
Qed.
Print Assumptions C99_exactly_when_told.
(** So in every history in which each happening is told, he knows them at the end. *)
Theorem C99_listener_knows_partial :
  forall support hs s, life (new_mlist support) hs = Ok s -> announced_life (new_mlist support) hs -> told s.
Proof.
  intros support hs s H A. assert (G : forall hs s0, known s0 -> told s0 -> life s0 hs = Ok s -> announced_life s0 hs -> told s).
  { clear. induction hs as [|[o h] hs IH]; intros s0 K T H A; cbn [life announced_life] in *; [now injection H as <-|]. step H. destruct (A _ eq_refl) as [A1 A2].
    apply (IH a); auto; [|now apply (C99_exactly_when_told _ _ _ _ K T E)]. now apply (step_invariant _ _ _ _ E). }
  apply (G hs (new_mlist support)); auto; [apply new_invariant|reflexivity].
Qed.
Print Assumptions C99_listener_knows_partial.
(** Selecting a difference of a model that is there is told; the selection is then what was asked for. *)
Theorem C99_selecting_is_told :
  (forall o s m d s', occur o s (HSelect m d) = Ok s' -> difference_of_model s m d -> announced o s (HSelect m d) s' /\ ml_sel s' = m) /\
  (forall o s d s', occur o s (HSelectDifference d) = Ok s' -> difference_of_model s (ml_sel s) d -> announced o s (HSelectDifference d) s' /\ ml_sel s' = ml_sel s).
Proof.
  split.
  - intros o s m d s' H D. destruct (selected_pair _ _ _ _ H) as (_ & _ & A & B). split; [now apply B|exact A].
  - intros o s d s' H D. destruct (selected_one _ _ _ H) as (_ & _ & A & B). split; [now apply B|exact A].
Qed.
Print Assumptions C99_selecting_is_told.
(** Whatever he knew before: when a list is shown, by show(), by an opening that went well, or at the end of diff, he knows everything again. *)
Theorem C99_shown_is_told :
  forall o s s',
  (show s = Ok s' -> told s') /\
  (forall diff, parse_and_open o s diff = Ok (s', true) -> told s') /\
  (open_and_blend o s = Ok (s', true) -> told s') /\
  (forall st out err, slot_diff_process_finished o s true st out err = Ok s' -> ml_models s' <> None -> told s').
Proof.
  intros o s s'. split; [apply told_show|]. assert (F : forall g a, (forall p, hear p g = p) -> told a -> told (emit g a)).
  { intros g a Q T. eapply told_still; [|exact T]. split; [split; [rewrite heard_emit; apply Q|reflexivity]|split; reflexivity]. }
  split; [|split].
  - intros diff H. unfold parse_and_open in H. step H. destruct a as [s1 [|]]; [|discriminate]. step H. step H. injection H as <-. apply F; [reflexivity|]. eapply told_show; eauto.
  - intros H. unfold open_and_blend in H. step H. step H. destruct a0 as [s1 [|]]; cbn [negb] in H; [|discriminate]. step H. step H. step H. step H. destruct a3 as [s3 [|]]; cbn [negb] in H; [|discriminate]. step H. step H. injection H as <-. eapply told_show; eauto.
  - intros st out err H NN. unfold slot_diff_process_finished in H. destruct (negb _); [discriminate|]. step H. injection H as <-. change (told a). change (ml_models a <> None) in NN. step E. destruct a0 as [s1 ok]. destruct (read_parts _ _ _ _ _ E0) as [_ R]. step E. injection E as <-.
    apply F; [reflexivity|]. destruct ok; cbn [negb] in E1; [step E1; step E1; step E1; eapply told_show; eauto|]. injection E1 as <-. destruct R as [M _]. exfalso. apply NN. exact M.
Qed.
Print Assumptions C99_shown_is_told.
(** When a text cannot be read, nobody is told that the list is gone: a listener still has the list that was there before (empty, if it was cleared first), and that list has been deleted. *)
Theorem C99_failed_reading_not_told :
  forall o s s', ml_models s <> None -> told s ->
  (forall diff, parse_and_open o s diff = Ok (s', false) -> pc_models (heard s') = Some [] /\ ml_models s' = None) /\
  (forall st out err p, slot_diff_process_finished o s true st out err = Ok s' -> parse (os_sort o) (split_lines out) = Ok p -> po_models p = None -> pc_models (heard s') = ml_models s /\ ml_models s' = None).
Proof.
  intros o s s' NN T. split.
  - intros diff H. unfold parse_and_open in H. step H. destruct a as [s1 [|]]; [step H; step H; discriminate|]. injection H as <-. destruct (read_parts _ _ _ _ _ E) as [R1 (M & _)]. rewrite heard_emit. cbn [hear]. rewrite R1, heard_emit. cbn [hear]. rewrite heard_clear. cbn [pc_models].
    split; [|exact M]. unfold clear. destruct (ml_models s); [reflexivity|now destruct NN].
  - intros st out err p H P PM. unfold slot_diff_process_finished in H. destruct (negb _); [discriminate|]. step H. injection H as <-. change (pc_models (heard a) = ml_models s /\ ml_models a = None). step E. destruct a0 as [s1 ok]. destruct (read_parts _ _ _ _ _ E0) as [R1 R2].
    assert (OK : ok = false). { unfold parse_diff_output in E0. rewrite P in E0. cbn [bind] in E0. rewrite PM in E0. cbn [with_models] in E0. step E0. cbn [with_info ml_models with_models] in E0. now injection E0 as _ <-. }
    subst ok. step E. injection E as <-. cbn [negb] in E1. injection E1 as <-. destruct R2 as [M _]. rewrite !heard_emit. cbn [hear]. rewrite R1, heard_emit. cbn [hear]. split; [now apply told_list|exact M].
Qed.
Print Assumptions C99_failed_reading_not_told.
(** That happens: a diff is opened, then a text that is none. The listener has an empty list that was deleted, and what was selected before; models() gives no list. *)
Definition opens_badly : list (outside * happening) := map (fun h => (here, h)) [HInfo two_urls; HParseAndOpen two_files; HNextModel; HParseAndOpen (lit "no diff")].
Theorem C99_listener_knows_refuted :
  exists s, life (new_mlist true) opens_badly = Ok s /\ ml_models s = None /\ pc_models (heard s) = Some [] /\ ~ told s.
Proof.
  assert (G : forall r, match r with Ok s => match ml_models s, pc_models (heard s) with None, Some [] => true | _, _ => false end | _ => false end = true ->
     exists s, r = Ok s /\ ml_models s = None /\ pc_models (heard s) = Some []).
  { intros [s| |] K; try discriminate K. exists s. destruct (ml_models s); [discriminate|]. destruct (pc_models (heard s)) as [[|]|]; try discriminate. auto. }
  destruct (G (life (new_mlist true) opens_badly)) as (s & A & B & C); [vm_compute; reflexivity|]. exists s. split; [exact A|]. split; [exact B|]. split; [exact C|].
  intros T. apply told_list in T. congruence.
Qed.
Print Assumptions C99_listener_knows_refuted.
(** A history in which everything is told: two files are compared and shown, walked through, selected, applied, compared again, opened as a diff. *)
Definition tells_all : list (outside * happening) := map (fun h => (here, h))
  [HInfo two_urls; HRefresh; HFinished true NormalExit two_files []; HNextDifference; HPreviousModel; HSelect (Some 1%nat) (Some (1, 1)%nat); HActApply; HSaveAll (fun _ => good); HRefresh;
   HFinished false CrashExit [] []; HParseAndOpen two_files; HNextModel].
Example C99_example : exists s, life (new_mlist true) tells_all = Ok s /\ announced_life (new_mlist true) tells_all /\ told s /\ ml_sel s = Some 3%nat /\ ml_models s = Some [2; 3]%nat.
Proof.
  assert (G : forall r, match r with Ok s => match ml_sel s, ml_models s with Some 3%nat, Some [2; 3]%nat => true | _, _ => false end | _ => false end = true ->
     exists s, r = Ok s /\ ml_sel s = Some 3%nat /\ ml_models s = Some [2; 3]%nat).
  { intros [s| |] K; try discriminate K. exists s. destruct (ml_sel s) as [[|[|[|[|n]]]]|]; try discriminate. destruct (ml_models s) as [[|[|[|[|n]]] [|[|[|[|[|n']]]] [|]]]|]; try discriminate. auto. }
  destruct (G (life (new_mlist true) tells_all)) as (s & A & B & C); [vm_compute; reflexivity|]. exists s. split; [exact A|].
  assert (AL : announced_life (new_mlist true) tells_all).
  { enough (Q : forall hs s0, (fix go (s : mlist) (l : list (outside * happening)) : bool := match l with [] => true | (o, h) :: l' => match occur o s h with Ok s1 =>
        (match h with HSelect _ (Some (a, b)) => match ml_diff s1 with Some (a', b') => Nat.eqb a a' && Nat.eqb b b' | None => false end
         | HParseAndOpen d => match parse_and_open o s d with Ok (_, true) => true | _ => false end
         | HFinished true _ _ _ => match ml_models s1 with Some _ => true | None => false end
         | HInfo _ | HRefresh | HFinished false _ _ _ | HNextDifference | HNextModel | HPreviousModel | HActApply | HSaveAll _ => true | _ => false end && go s1 l')%bool | _ => true end end) s0 hs = true -> announced_life s0 hs)
      by (apply Q; vm_compute; reflexivity).
    clear. induction hs as [|[o h] hs IH]; intros s0 Q; cbn [announced_life]; [exact I|]. intros s1 E. rewrite E in Q. apply andb_prop in Q as [Q1 Q2]. split; [|now apply IH].
    destruct h; try discriminate Q1; try exact I; cbn [announced].
    - destruct d as [[a b]|]; [|discriminate]. destruct (ml_diff s1) as [[a' b']|]; [|discriminate]. apply andb_prop in Q1 as [X1 X2]. apply Nat.eqb_eq in X1, X2. now subst.
    - destruct (parse_and_open o s0 diff) as [[s2 [|]]| |]; try discriminate. now left.
    - destruct success; [|exact I]. left. destruct (ml_models s1); [discriminate|discriminate]. }
  split; [exact AL|]. split; [exact (C99_listener_knows_partial true tells_all s A AL)|]. auto.
Qed.
