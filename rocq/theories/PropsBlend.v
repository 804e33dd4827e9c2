(** C36, C37, C38, C39: blending a file into a model and saving. *)
From Coq Require Import String.
From Verif Require Import Base QtStr Diff Save Parser SpecHistory SpecPatch SpecParse SpecText Blend SpecBlend PHistory PropsText PEditLines PUnifiedDoc PBlend PSave.
Local Open Scope Z_scope.

(** Blending any file: never undefined; the hunks stay, in order, with their objects, and hunks of common
    lines are added; each line of the file is in an added hunk or passed over for a hunk. *)
Theorem C36_blending_any_file :
  forall m hs text A, links m hs -> lines_of_text text A ->
  exists mb out, blend_file m text = Ok mb /\ links mb out /\ filled_in A hs out /\
    same_but_hunks m mb /\ dm_blended mb = true /\
    (forall i d, deref (dm_store m) i = Ok d -> deref (dm_store mb) i = Ok d).
Proof.
  intros m hs text A L LT. apply C01_split_lossless in LT. subst A. destruct (blend_ok m hs text L) as (mb & out & more & E & ES & LB & FI & SB & BL & _).
  exists mb, out. repeat split; try assumption; try apply LB. intros i d. unfold deref. rewrite ES.
  destruct (nth_error (dm_store m) i) eqn:N; [|discriminate]. rewrite nth_error_app1 by (apply nth_error_Some; congruence). now rewrite N.
Qed.
Print Assumptions C36_blending_any_file.
(** Blending the file that the hunks were made for: the model shows both whole files, without gaps. *)
Theorem C36_blending_completes :
  forall m hs text A B, links m hs -> lines_of_text text A -> turns 1 1 A B hs ->
  exists mb out, blend_file m text = Ok mb /\ links mb out /\ filled_in A hs out /\
    old_lines (concat (map snd out)) = A /\ new_lines (concat (map snd out)) = B /\ gapless 1 1 out.
Proof.
  intros m hs text A B L LT T. apply C01_split_lossless in LT. subst A. destruct (blend_ok m hs text L) as (mb & out & more & E & ES & LB & FI & SB & BL & F).
  destruct (F B T) as (O & N & G). exists mb, out. repeat split; try assumption; apply LB.
Qed.
Print Assumptions C36_blending_completes.

(** recreateDiff() prints the same. *)
Theorem C39_recreated_diff_unchanged :
  forall m hs text mb, links m hs -> blend_file m text = Ok mb -> recreate_diff mb = recreate_diff m.
Proof.
  intros m hs text mb L E. destruct (blend_ok m hs text L) as (mb' & out & more & E' & ES & LB & FI & SB & _ & _).
  rewrite E in E'. injection E' as <-. unfold recreate_diff.
  assert (H : recreate_header mb = recreate_header m).
  { unfold same_but_hunks in SB. destruct mb, m. cbn in SB. injection SB; intros; subst; reflexivity. }
  assert (R : recreate_hunks (dm_store mb) (dm_hunks mb) = recreate_hunks (dm_store m) (dm_hunks m)); [|now rewrite H, R].
  destruct L as [L1 L2 _ _ _ _], LB as [B1 B2 _ _ _ _]. rewrite L1, B1. clear -FI L2 B2.
  induction FI as [|p sk lines hs out _ FI IH|p lines hs out O _ FI IH]; [reflexivity| |].
  - inversion_clear L2 as [|? ? L3 L4]. inversion_clear B2 as [|? ? B3 B4]. cbn [map recreate_hunks]. unfold recreate_hunk. rewrite L3, B3, IH by assumption. reflexivity.
  - inversion_clear B2 as [|? ? B3 B4]. unfold original in O. cbn [map recreate_hunks]. destruct (h_type (fst p)); [discriminate|]. cbn [bind].
    rewrite IH by assumption. destruct (recreate_hunks (dm_store m) (map fst hs)); reflexivity.
Qed.
Print Assumptions C39_recreated_diff_unchanged.

(** What a save does, for any model and any outcome of the file operations. *)
Theorem C37_save_outcome :
  forall e m hs, links m hs -> exists u o, has_unsaved m = Ok u /\ save_destination e m = Ok o /\
  (u = false -> o = mk_save_out true None false m) /\
  (u = true -> save_succeeds e = false -> so_written o = None /\ so_error o = true /\ so_model o = m) /\
  (u = true -> save_succeeds e = true ->
    so_ret o = true /\ so_error o = false /\ so_written o = Some (concat (concat (map kept (concat (map snd hs))))) /\
    has_unsaved (so_model o) = Ok false /\ same_rest m (so_model o) /\
    dm_applied (so_model o) = dm_applied m /\ dm_sel (so_model o) = dm_sel m /\ dm_index (so_model o) = dm_index m /\
    exists ds, listed m = Ok ds /\ listed (so_model o) = Ok (map (set_unsaved false) ds)).
Proof.
  intros e m hs [L1 L2 L3 L4 L5 L6]. unfold save_destination, has_unsaved at 1 2. rewrite L3. cbn [bind].
  set (ds := filter _ _) in *. exists (existsb d_unsaved ds). destruct (existsb d_unsaved ds); cbn [negb].
  2: { eexists. repeat split; try discriminate. }
  rewrite L1, (saved_lines_kept _ _ L2). cbn [bind]. unfold save_succeeds.
  destruct (clear_ok _ _ _ L3 L4) as (st' & EC & F & V). rewrite EC. cbn [bind].
  assert (OK : same_rest m (with_store m st') /\ has_unsaved (with_store m st') = Ok false).
  { split; [apply same_rest_store; [|exact F]|].
    - unfold same_rest. repeat split; reflexivity || auto.
    - unfold has_unsaved. cbn. rewrite V. cbn [bind]. f_equal. clear. induction ds; [reflexivity|exact IHds]. }
  destruct OK as [OK1 OK2].
  destruct (se_open e); cbn [negb andb]; [|eexists; repeat split; try discriminate].
  destruct (se_write e); cbn [negb andb]; [|eexists; repeat split; try discriminate].
  destruct (se_close e); cbn [negb andb]; [|eexists; repeat split; try discriminate].
  destruct (se_dirs e), (se_stat e), (se_mkdir e); cbn [negb andb orb]; destruct (se_copy e); cbn [andb];
    eexists; (split; [reflexivity|]); (split; [reflexivity|]); (split; [discriminate|]); (split; [try discriminate; auto|]); try discriminate; intros _ _;
    cbn [so_ret so_error so_written so_model]; (split; [reflexivity|]); (split; [reflexivity|]); (split; [reflexivity|]);
    (split; [exact OK2|]); (split; [exact OK1|]); (split; [reflexivity|]); (split; [reflexivity|]); (split; [reflexivity|]); exists ds; (split; [exact L3|exact V]).
Qed.
Print Assumptions C37_save_outcome.

(** Apply, unapply and save at will, blend the original file A at any moment, go on, and save: the text is B
    with the applied differences taken back; without any of them it is B, with all of them it is A. *)
Theorem C37_saved_text_after_any_history :
  forall m ds hs text A B ops1 ops2 s1 s2 e,
  fresh m ds -> links m hs -> context_same hs -> lines_of_text text A -> turns 1 1 A B hs ->
  abs_run (abs_init (length ds)) ops1 = Some s1 -> abs_run s1 ops2 = Some s2 ->
  exists m1 mb m2 o R,
    run m ops1 = Ok m1 /\ blend_file m1 text = Ok mb /\ run mb ops2 = Ok m2 /\ save_destination e m2 = Ok o /\
    partly 1 (f_now s2) A hs R /\
    (save_succeeds e = true -> f_now s2 <> f_saved s2 -> so_ret o = true /\ so_error o = false /\ so_written o = Some (concat R)) /\
    (f_now s2 = f_saved s2 -> so_ret o = true /\ so_error o = false /\ so_written o = None) /\
    ((forall f, In f (f_now s2) -> f = false) -> R = B) /\ ((forall f, In f (f_now s2) -> f = true) -> R = A /\ concat R = text).
Proof.
  intros m ds hs text A B ops1 ops2 s1 s2 e FR L CS LT T A1 A2. apply C01_split_lossless in LT. subst A.
  pose proof (fresh_sim m ds FR) as S0. destruct FR as [HL HN HH HS HO HC HSel].
  assert (CN : forall d, In d ds -> d_connected d = true) by (intros d I; apply HS in I; tauto).
  destruct (run_sim m ds ops1 m _ s1 HO CN S0 A1) as (m1 & E1 & S1 & _).
  assert (EX0 : expect 0 ds (repeat false (length ds)) (repeat false (length ds)) = ds).
  { destruct S0 as [V _ _ _ _ _ _]. cbn in V. unfold listed in HL. rewrite HL in V. now injection V. }
  assert (L1 : exists hs1, links m1 hs1 /\ Forall2 alike hs hs1).
  { destruct S1 as [V R _ _ Len1 Len2 _]. eapply links_rest; [exact L|exact R|exact HL|exact V|].
    rewrite <- EX0 at 1. apply expect_similar; rewrite ?repeat_length; auto. }
  destruct L1 as (hs1 & L1 & AL1).
  assert (T1 : turns 1 1 (split_lines text) B hs1) by (eapply turns_alike; eauto).
  destruct (blend_ok m1 hs1 text L1) as (mb & out & more & EB & ES & LB & FI & SB & BL & FIT).
  destruct (FIT B T1) as (OO & NN & GG).
  assert (SM : sim mb ds mb s1).
  { destruct S1 as [V R ND HU Len1 Len2 SL].
    unfold same_but_hunks in SB. assert (X : dm_diffs mb = dm_diffs m1 /\ dm_sel mb = dm_sel m1).
    { destruct mb, m1. cbn in SB. injection SB. cbn. intros; subst; auto. }
    destruct X as [X1 X2]. split; rewrite ?X1, ?X2; auto.
    - rewrite ES. now apply deref_all_grow.
    - unfold same_rest. repeat split; auto.
    - intros h IH i I. destruct LB as [B1 B2 _ _ _ _]. rewrite B1 in IH. apply in_map_iff in IH as (q & <- & Q).
      rewrite Forall_forall in B2. eapply PEditLines.deref_all_lt; [exact (B2 q Q)|exact I]. }
  destruct (run_sim mb ds ops2 mb s1 s2 HO CN SM A2) as (m2 & E2 & S2 & _).
  assert (L2 : exists out2, links m2 out2 /\ Forall2 alike out out2 /\ listed m2 = Ok (expect 0 ds (f_now s2) (f_saved s2)) /\
     length (f_now s2) = length ds /\ length (f_saved s2) = length ds).
  { destruct S2 as [V2 R2 _ _ M1 M2 _]. destruct SM as [V1 _ _ _ N1 N2 _].
    destruct (links_rest mb m2 out _ _ LB R2 V1 V2) as (out2 & Q1 & Q2); [apply expect_similar; auto|]. exists out2. auto. }
  destruct L2 as (out2 & L2 & AL2 & V2 & M1 & M2).
  assert (P1 : Forall plain (all_diffs hs1)) by (eapply plain_alike; eauto).
  assert (P2 : Forall plain (all_diffs out)).
  { clear -FI P1. unfold all_diffs in *. induction FI as [|p sk lines hs out _ _ IH|p lines hs out _ C _ IH]; [constructor| |]; cbn [map concat] in *.
    - apply Forall_app in P1 as [Q1 Q2]. apply Forall_app. auto.
    - apply Forall_app. split; [|auto]. destruct C as (d & -> & _ & _ & _ & _ & _ & C & PR). constructor; [|constructor]. intros _. split; [apply PR|exact C]. }
  assert (P3 : Forall plain (all_diffs out2)) by (eapply plain_alike; eauto).
  assert (AP : map d_applied (filter (fun d => negb (is_context d)) (all_diffs out2)) = f_now s2).
  { destruct L2 as [_ _ Q _ _ _]. unfold listed in V2. unfold all_diffs. rewrite Q in V2. injection V2 as ->. now apply expect_applied. }
  destruct (C37_save_outcome e m2 out2 L2) as (u & o & U & EO & O1 & O2 & O3).
  assert (LH : length (f_now s2) = length (filter (fun d => negb (is_context d)) (all_diffs hs))).
  { destruct L as [_ _ Q _ _ _]. unfold listed in HL. rewrite Q in HL. injection HL as HL. unfold all_diffs. now rewrite HL. }
  destruct (partly_exists _ _ _ _ _ T (f_now s2) LH) as [R HR].
  assert (ER : choose (f_now s2) (all_diffs out) = R).
  { eapply (partly_chosen _ _ _ FI 1 1 1 1 _ B []); [exact GG|exact T1|reflexivity|reflexivity|]. eapply partly_alike; eauto. }
  assert (ER2 : concat (map kept (all_diffs out2)) = R).
  { rewrite <- (choose_kept _ P3), AP, (choose_alike _ _ _ (alike_similar _ _ AL2)). exact ER. }
  assert (LO : length (f_now s2) = length (filter (fun d => negb (is_context d)) (all_diffs out))).
  { rewrite <- AP, map_length. pose proof (alike_similar _ _ AL2) as F. clear -F.
    induction F as [|d d' l l' S _ IH]; [reflexivity|]. cbn. rewrite (similar_context _ _ S). destruct (negb (is_context d)); cbn; now rewrite IH. }
  exists m1, mb, m2, o, R. split; [exact E1|]. split; [exact EB|]. split; [exact E2|]. split; [exact EO|]. split; [exact HR|].
  assert (US : u = false <-> f_now s2 = f_saved s2).
  { unfold has_unsaved in U. unfold listed in V2. rewrite V2 in U. cbn [bind] in U. injection U as U. rewrite <- U. split; [now apply unsaved_expect|]. intros <-. clear. generalize 0, (f_now s2).
    induction ds as [|d ds IH]; intros z [|f fs]; try reflexivity. cbn. rewrite xorb_nilpotent. apply IH. }
  split; [|split; [|split]].
  - intros SS DF. destruct u.
    + destruct (O3 eq_refl SS) as (W1 & W2 & W & _). rewrite W. unfold all_diffs in ER2. now rewrite ER2.
    + exfalso. now apply DF, US.
  - intros EQ. apply US in EQ. rewrite (O1 EQ). auto.
  - intros NO. rewrite <- ER, <- NN. now apply choose_none.
  - intros AL. assert (EA : R = split_lines text) by (rewrite <- ER, (choose_all _ P2 _ LO AL); exact OO). split; [exact EA|].
    rewrite EA. apply (lt_whole _ _ (proj1 (C01_split_lossless text _) eq_refl)).
Qed.
Print Assumptions C37_saved_text_after_any_history.

(** A save that could not write says so by the error signal, but not by its result when it was the last
    step, copying to the destination, that failed. *)
Theorem C38_failed_copy_reported_refuted :
  exists e m o, has_unsaved m = Ok true /\ save_destination e m = Ok o /\ so_written o = None /\ so_ret o = true.
Proof.
  set (d := mk_diff Change 1 1 1 [new_ds (lit "a")] [new_ds (lit "b")] true false true true).
  set (m := with_contents (new_model (lit "a") (lit "b")) [mk_hunk 1 1 [] HNormal [0%nat]] [0%nat] [d]).
  exists (mk_save_env true true true false true true false), m. eexists. split; [reflexivity|]. split; [reflexivity|]. split; reflexivity.
Qed.
Print Assumptions C38_failed_copy_reported_refuted.
(** What is true: nothing is written without an error signal, and every other failure makes the result
    false; saveAll() goes on exactly until the first false, and is false then. *)
Theorem C38_failed_save_reported_partial :
  forall e m hs o, links m hs -> has_unsaved m = Ok true -> save_destination e m = Ok o -> so_written o = None ->
  so_error o = true /\ so_model o = m /\ (so_ret o = true -> se_copy e = false) /\
  ((se_open e && se_write e && se_close e && (negb (se_dirs e) || se_stat e || se_mkdir e))%bool = false -> so_ret o = false).
Proof.
  intros e m hs o L U E W. destruct (C37_save_outcome e m hs L) as (u & o' & U' & E' & _ & O2 & O3).
  rewrite U in U'. injection U' as <-. rewrite E in E'. injection E' as <-.
  destruct (save_succeeds e) eqn:SS. { destruct (O3 eq_refl eq_refl) as (_ & _ & X & _). congruence. }
  destruct (O2 eq_refl eq_refl) as (_ & X1 & X2). split; [exact X1|]. split; [exact X2|].
  unfold save_destination in E. rewrite U in E. cbn [bind negb] in E. destruct L as [L1 L2 _ _ _ _]. rewrite L1, (saved_lines_kept _ _ L2) in E. cbn [bind] in E.
  unfold save_succeeds in SS.
  destruct (se_open e), (se_write e), (se_close e), (se_dirs e), (se_stat e), (se_mkdir e), (se_copy e); cbn in *; try discriminate;
    injection E as <-; cbn; split; auto; discriminate.
Qed.
Print Assumptions C38_failed_save_reported_partial.
Theorem C38_save_all_stops :
  forall envs ms b outs, save_all envs ms = Ok (b, outs) ->
  (ms = [] -> b = false /\ outs = []) /\
  (b = true -> length outs = length ms /\ Forall (fun o => so_ret o = true) outs) /\
  (b = false -> ms <> [] -> exists outs' o, outs = outs' ++ [o] /\ so_ret o = false /\ Forall (fun o => so_ret o = true) outs') /\
  (forall k o, nth_error outs k = Some o -> exists m e, nth_error ms k = Some m /\ nth_error envs k = Some e /\ save_destination e m = Ok o).
Proof.
  assert (K : forall ms envs b outs, save_all_loop envs ms = Ok (b, outs) ->
    (b = true -> length outs = length ms /\ Forall (fun o => so_ret o = true) outs) /\
    (b = false -> exists outs' o, outs = outs' ++ [o] /\ so_ret o = false /\ Forall (fun o => so_ret o = true) outs') /\
    (forall k o, nth_error outs k = Some o -> exists m e, nth_error ms k = Some m /\ nth_error envs k = Some e /\ save_destination e m = Ok o)).
  { induction ms as [|m ms IH]; intros envs b outs E; cbn [save_all_loop] in E.
    - injection E as <- <-. split; [auto|]. split; [discriminate|]. intros [|k] o; discriminate.
    - destruct envs as [|e envs]; [discriminate|]. destruct (save_destination e m) as [o| |] eqn:S; try discriminate. cbn [bind] in E.
      destruct (so_ret o) eqn:RT.
      + destruct (save_all_loop envs ms) as [[b' outs']| |] eqn:E'; try discriminate. cbn in E. injection E as <- <-.
        destruct (IH _ _ _ E') as (K1 & K2 & K3). split; [|split].
        * intros H. destruct (K1 H). cbn. auto.
        * intros H. destruct (K2 H) as (x & y & -> & Y & Z). exists (o :: x), y. cbn. auto.
        * intros [|k] o' N; cbn in N; [injection N as <-; exists m, e; auto|]. exact (K3 k o' N).
      + injection E as <- <-. split; [discriminate|]. split.
        * intros _. exists [], o. auto.
        * intros [|[|k]] o' N; cbn in N; try discriminate. injection N as <-. exists m, e. auto. }
  intros envs ms b outs E. unfold save_all in E. destruct ms as [|m ms].
  - injection E as <- <-. split; [auto|]. split; [discriminate|]. split; [congruence|]. intros [|k] o; discriminate.
  - destruct (K _ _ _ _ E) as (K1 & K2 & K3). split; [discriminate|]. auto.
Qed.
Print Assumptions C38_save_all_stops.
