(** C75: comparing a text with a file. *)
From Coq Require Import String Permutation.
From Verif Require Import Base QtStr Diff Save Parser SpecHistory SpecPatch SpecParse SpecText SpecUnified Blend SpecBlend SpecWorkflow Info ModelList SpecList World SpecWorld
  PHistory PropsText PEditLines PUnifiedDoc PropsUnified PropsRecreate PBlend PSave PropsBlend PWorkflow PropsWorkflow PModelState PList PListOpen PropsList PKin PWorld PAnyInput PropsRewritten PropsWorld.
From Verif Require PLevTable.
Local Open Scope Z_scope.

(** A file compared with a text: as for two files (C62). *)
Theorem C75_file_with_text :
  forall o s i st err d p A B f, (forall l, Permutation (os_sort o l) l) -> doc_ok d -> ud_files d = [p] ->
  ml_process s = true -> ml_info s = Some i -> in_mode i = ComparingFileString ->
  os_is_dir o (in_local_source i) = false -> os_is_file o (in_local_source i) = true -> lines_of_text (os_read o (in_local_source i)) A ->
  patches true 1 1 A B (up_hunks p) -> text_at f (in_destination i) = concat B ->
  exists s', slot_diff_process_finished o s true st (doc_text d) err = Ok s' /\ shows s' (opened_files [p] (ml_rw s)) /\
  forall ops v, Forall (fits i) ops -> vrun (opened_files [p] (ml_rw s)) ops = Some v ->
  exists s'' f', runs_on s' f ops = Ok (s'', f') /\ run_lops s' ops = Ok s'' /\ shows s'' v /\
    mixture A (up_hunks p) (saved_of v 0) (text_at f' (in_destination i)) /\
    (has_unsaved_changes s'' = Ok false -> mixture A (up_hunks p) (now_of v 0) (text_at f' (in_destination i))) /\
    (forall u, u <> in_destination i -> f' u = f u).
Proof. intros o s i st err d p A B f HP OK DF PR I MO. apply (one_file_session o s i st err d p A B f HP OK DF PR I); rewrite MO; discriminate. Qed.
Print Assumptions C75_file_with_text.

(** * A text compared with a file *)
Lemma run_any_disk o s f s' f' g : run_on s f o = Ok (s', f') -> exists g', run_on s g o = Ok (s', g').
Proof.
  assert (SM : forall e s f m s' f' b, save_model_on e s f m = Ok (s', f', b) -> forall g, exists g', save_model_on e s g m = Ok (s', g', b)).
  { clear. intros e s f m s' f' b H g. unfold save_model_on in *. destruct (model_of s m) as [x| |]; try discriminate. cbn [bind] in *. destruct (the_info s) as [i| |]; try discriminate. cbn [bind] in *.
    destruct (save_destination _ x) as [o| |]; try discriminate. cbn [bind] in *. destruct (save_model _ s m) as [r| |]; try discriminate. cbn [bind] in *. injection H as <- _ <-. eauto. }
  assert (SS : forall envs l k s f s' f' b, save_models_on envs k s f l = Ok (s', f', b) -> forall g, exists g', save_models_on envs k s g l = Ok (s', g', b)).
  { clear -SM. induction l as [|m l IH]; intros k s f s' f' b H g; cbn [save_models_on] in *; [injection H as <- _ <-; eauto|].
    destruct (save_model_on (envs k) s f m) as [[[s1 f1] b1]| |] eqn:E; try discriminate. cbn [bind] in H. destruct (SM _ _ _ _ _ _ _ E g) as (g1 & ->). cbn [bind].
    destruct b1; [eapply IH; exact H|]. injection H as <- _ <-. eauto. }
  intros H. destruct o as [| | | |? ?|?|?|?| | |?|e|envs|?]; cbn [run_on] in *;
    try (match type of H with (bind ?t _) = _ => destruct t; try discriminate; cbn [bind] in *; injection H as <- _; eauto end).
  - unfold slot_save_on in *. destruct (ml_sel s) as [m|]; [|injection H as <- _; eauto]. destruct (the_info s) as [i| |]; try discriminate. cbn [bind] in *.
    destruct (save_model_on e s f m) as [[[s1 f1] b1]| |] eqn:E; try discriminate. cbn [bind] in H. destruct (SM _ _ _ _ _ _ _ E g) as (g1 & ->). cbn [bind]. destruct (slot_save _ s) as [s2| |]; try discriminate. cbn [bind] in *. injection H as <- _. eauto.
  - unfold save_all_on in *. destruct (Z.eqb _ _); [injection H as <- _; eexists; reflexivity|]. destruct (the_list s) as [l| |]; try discriminate. cbn [bind] in *.
    destruct (save_models_on envs 0 s f l) as [[[s1 f1] b1]| |] eqn:E; try discriminate. destruct (SS _ _ _ _ _ _ _ _ E g) as (g1 & ->). cbn [bind fst] in *. injection H as <- _. eauto.
Qed.
Lemma runs_any_disk ops : forall s f s' f' g, runs_on s f ops = Ok (s', f') -> exists g', runs_on s g ops = Ok (s', g').
Proof.
  induction ops as [|o ops IH]; intros s f s' f' g H; cbn [runs_on] in *; [injection H as <- _; eauto|]. destruct (run_on s f o) as [[s1 f1]| |] eqn:E; try discriminate. cbn [bind fst snd] in H.
  destruct (run_any_disk _ _ _ _ _ g E) as (g1 & ->). cbn [bind fst snd]. eapply IH; exact H.
Qed.
(** A save that is needed and succeeds writes the text of the moment, whatever was there before. *)
Lemma save_writes i es s f v e k en g : entries_ok i es -> kept_up i es s f v -> fits i (LSave e) -> k = v_model v -> nth_error es k = Some en ->
  save_succeeds e = true -> now_of v k <> saved_of v k -> exists s' g', run_on s g (LSave e) = Ok (s', g') /\ text_at g' (en_url en) = en_text en (now_of v k).
Proof.
  intros EO K FI -> NE SU UN. pose proof (ku_shows _ _ _ _ _ K) as SH. destruct (run_lop_ok s v (LSave e) _ SH eq_refl) as (s' & E & _).
  destruct (shows_facts s v SH) as (l & m & x & d & fl & y & F). destruct (fa_at _ _ _ _ _ _ _ _ F) as (A1 & A2 & A3).
  cbn [run_on fits] in *. unfold slot_save_on. rewrite A2. unfold the_info. rewrite (ku_info _ _ _ _ _ K). cbn [bind]. rewrite (env_in_same _ _ FI). unfold save_model_on. rewrite (fa_model _ _ _ _ _ _ _ _ F). cbn [bind]. unfold the_info. rewrite (ku_info _ _ _ _ _ K). cbn [bind].
  rewrite (env_in_same _ _ FI). destruct (ku_models _ _ _ _ _ K l _ m (proj1 (fa_tidy _ _ _ _ _ _ _ _ F)) A1) as (en' & x' & NE' & EX & KX). rewrite NE in NE'. injection NE' as <-. rewrite (fa_model _ _ _ _ _ _ _ _ F) in EX. injection EX as <-.
  rewrite (fa_now _ _ _ _ _ _ _ _ F), (fa_saved _ _ _ _ _ _ _ _ F) in UN. rewrite (fa_now _ _ _ _ _ _ _ _ F). pose proof (fa_state _ _ _ _ _ _ _ _ F) as M. destruct EO as [W U _]. rewrite Forall_forall in W, U. pose proof (nth_error_In _ _ NE) as IN.
  destruct (save_text e _ _ _ _ _ (W _ IN) KX M) as (o & EO & WR). rewrite EO. cbn [bind]. unfold save_model. rewrite (fa_model _ _ _ _ _ _ _ _ F). cbn [bind]. rewrite EO. cbn [bind fst snd]. cbn [run_lop] in E. rewrite E. cbn [bind].
  eexists _, _. split; [reflexivity|]. unfold copied. rewrite SU in WR. assert (UF : unsaved_flags (fst fl, snd fl) = true).
  { destruct (unsaved_flags (fst fl, snd fl)) eqn:Q; [reflexivity|]. exfalso. apply UN. apply unsaved_same; [apply M|exact Q]. }
  rewrite UF in WR. cbn [andb] in WR. rewrite WR, (U _ IN x KX). apply text_put.
Qed.
Lemma picks us hs : Forall2 hunk_is us hs -> Forall2 seg_is (concat (map uh_segs us)) (all_diffs hs).
Proof. unfold all_diffs. induction 1 as [|u q us hs (_ & _ & _ & _ & SG & _) _ IH]; [constructor|]. cbn [map concat]. now apply Forall2_app. Qed.
(** When nothing is blended in - the list shows a diff, or the source is no file, as when it is a text -, whatever the user does
    and then saves: the destination file consists of the lines of the hunks only. *)
Theorem C75_only_the_hunks_are_saved :
  forall o s i st err d p f, (forall l, Permutation (os_sort o l) l) -> doc_ok d -> ud_files d = [p] ->
  ml_process s = true -> ml_info s = Some i -> in_mode i <> ComparingDirs ->
  (in_mode i = ShowingDiff \/ os_is_dir o (in_local_source i) = false /\ os_is_file o (in_local_source i) = false) ->
  exists s', slot_diff_process_finished o s true st (doc_text d) err = Ok s' /\ shows s' (opened_files [p] (ml_rw s)) /\
  forall ops v e, Forall (fits i) ops -> fits i (LSave e) -> vrun (opened_files [p] (ml_rw s)) ops = Some v ->
  save_succeeds e = true -> now_of v 0 <> saved_of v 0 ->
  exists s1 f1 s2 f2, runs_on s' f ops = Ok (s1, f1) /\ run_on s1 f1 (LSave e) = Ok (s2, f2) /\
    text_at f2 (in_destination i) = concat (pick (now_of v 0) (concat (map uh_segs (up_hunks p)))).
Proof.
  intros o s i st err d p f HP OK DF PR I MD NB. destruct (doc_models _ d HP OK) as (po & ms & order & EP & EM & PO & F). rewrite DF in PO. symmetry in PO. apply Permutation_length_1_inv in PO. subst order.
  inversion F as [|? x ? ms' PI F' E1 E2]. inversion F' as [E3|]. subst ms ms'. assert (OKP : patch_ok p) by (pose proof (do_files _ OK) as Q; rewrite DF in Q; now inversion Q).
  destruct (process_ok o s po [x] i st (doc_text d) err PR I (conj HP (conj EP EM))) as (s' & E & SH & _ & HO & I' & _). exists s'. split; [exact E|].
  rewrite (opened_view [p] [x] _ F) in SH by (constructor; [exact OKP|constructor]). split; [exact SH|]. intros ops v e FI FE V SU UN. set (j := with_parsed i (po_generator po) (po_format po)) in *.
  destruct HO as (l0 & M & LL & HO). destruct l0 as [|m0 [|]]; try discriminate LL. destruct (HO 0%nat m0 eq_refl) as (y & Y & x2 & x1 & NX & S0 & OR). cbn in NX. injection NX as <-.
  assert (S1 : sel_only x1 y). { destruct NB as [NB|[N1 N2]]; [rewrite NB in OR; exact OR|]. destruct (mode_eqb (in_mode i) ShowingDiff); [exact OR|]. unfold SpecList.original in OR. now rewrite N1, N2 in OR. }
  pose proof PI as (_ & hs & [L _] & FH). pose proof (so_links _ _ _ S1 (so_links _ _ _ S0 L)) as L1.
  pose proof (picks _ _ FH) as SG.
  assert (SC : same_context hs). { unfold same_context. clear -SG. induction SG as [|sg dd ss ds G _ IH]; constructor; [|exact IH]. intros C. rewrite (seg_context _ _ G) in C. destruct G as (-> & -> & _). destruct sg; [reflexivity|discriminate]. }
  set (T := fun now => concat (choose now (all_diffs hs))). set (en := mk_entry y T (in_destination i)). set (z := repeat false (all_changes (up_hunks p))).
  assert (EO : entries_ok j [en]).
  { split; [constructor; [now apply links_write|constructor]| |cbn; constructor; [intros []|constructor]]. constructor; [|constructor]. intros x' _. cbn [en en_url]. unfold save_target. cbn [j with_parsed in_mode in_destination].
    destruct (in_mode i); try reflexivity. now destruct MD. }
  assert (K0 : kept_up j [en] s' (put_file f (in_destination i) (T z)) (opened_files [p] (ml_rw s))).
  { split; [exact SH|exact I'| |reflexivity|].
    - intros l' k m' M' N. rewrite M in M'. injection M' as <-. destruct k as [|k]; [|destruct k; discriminate]. cbn in N. injection N as <-. exists en, y. split; [reflexivity|]. split; [exact Y|]. apply kin_refl.
    - cbn [opened_files v_flags map]. constructor; [|constructor]. unfold stored. cbn [snd en en_url en_text]. apply text_put. }
  destruct (run_files j [en] EO ops s' _ _ v K0 FI V) as (s1 & f0 & R & _ & K & _). destruct (runs_any_disk _ _ _ _ _ f R) as (f1 & R1).
  assert (VM : v_model v = 0%nat).
  { pose proof (ku_length _ _ _ _ _ K) as LV. destruct (shows_facts s1 v (ku_shows _ _ _ _ _ K)) as (l' & m' & x' & d' & fl & y' & FA). pose proof (fa_flags _ _ _ _ _ _ _ _ FA) as N. apply nth_some_lt in N. cbn [length] in LV. lia. }
  destruct (save_writes j [en] s1 f0 v e 0 en f1 EO K FE (eq_sym VM) eq_refl SU UN) as (s2 & f2 & R2 & TX). exists s1, f1, s2, f2. split; [exact R1|]. split; [exact R2|]. cbn [en en_url en_text] in TX. rewrite TX. unfold T. now rewrite (choose_pick _ _ SG).
Qed.
Print Assumptions C75_only_the_hunks_are_saved.

(** The sample of C62, with the text in place of the source file: every change is applied, so the destination should become the
    text; it becomes the few lines of the two hunks. *)
Definition text_and_file : info := mk_info ComparingStringFile DefaultDiffMode Unified None [] (lit "/new") (concat sample_old) (lit "/new") None None 0 true.
Definition no_such_file : outside := mk_outside (fun l => l) (fun n => if str_eqb n (lit "/new") then concat sample_new else []) (fun _ => false) (str_eqb (lit "/new")) (str_eqb (lit "/new")) (fun _ => false) (fun a b => (a ++ lit "/" ++ b)%list).
Theorem C75_text_with_file_refuted :
  (do s <- slot_diff_process_finished no_such_file (compare_mode (slot_kompare_info (new_mlist true) text_and_file)) true NormalExit (doc_text canonical_doc) [];
   do r <- runs_on s disk [LActApplyAll true; LSave good];
   Ok (text_at (snd r) (lit "/new"))) =
  Ok (concat (lines ["a"; ""; "b"; "e"; "x"]%string)) /\
  concat (lines ["a"; ""; "b"; "e"; "x"]%string) <> in_local_source text_and_file.
Proof. split; [vm_compute; reflexivity|]. vm_compute; discriminate. Qed.
Print Assumptions C75_text_with_file_refuted.
