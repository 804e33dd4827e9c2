(** C93: what happens while a saved diff is copied to its place. *)
From Coq Require Import String Permutation.
From Verif Require PLevTable.
From Verif Require Import Base QtStr Diff Save Settings Parser SpecText SpecParse Blend Info ModelList SpecList Process SaveDiff Jobs SpecJobs Copying PropsText PropsParse PList PListOpen PKin PropsList PropsJobs.
Local Open Scope Z_scope.

(** If nothing happens while the diff is copied, the runs of diff are as in C78. *)
Theorem C93_nothing_meanwhile :
  forall other o d copies code st out err ok d', happen other o d (Finished code st out err ok) = Ok d' ->
  exists vs, (vs = [] \/ vs = [Copied ok]) /\ bench_history other o (mk_bench d copies) (Ev (Finished code st out err ok) :: vs) = Ok (mk_bench d' copies).
Proof.
  intros other o d copies code st out err ok d' H. cbn [bench_history bench_happen happen] in *. unfold bench_finished. cbn [bn_desk bn_copies].
  destruct (dk_job d) as [[[] []]|] eqn:J; try (exists []; split; [now left|]; rewrite H; reflexivity).
  destruct (process_success code st) eqn:P; [|exists []; split; [now left|]; rewrite H; reflexivity].
  unfold desk_finished in H. rewrite J, P in H. unfold slot_write_diff_output in H. destruct (wr_process (dk_writer d)) as [p|] eqn:WP; [|discriminate]. destruct (negb (wr_temp (dk_writer d))) eqn:T; [discriminate|]. cbn [bind] in H. injection H as <-.
  exists [Copied ok]. split; [now right|]. cbn [bind bench_history bench_happen]. unfold bench_copied. cbn [bn_copies bn_desk dk_writer]. rewrite T. unfold replace_process, busy. cbn [dk_job bind dk_list dk_writer dk_settings]. reflexivity.
Qed.
Print Assumptions C93_nothing_meanwhile.
(** A diff is being copied: diff has ended, and nothing has been started since. *)
Definition copying (b : bench) : Prop := bn_copies b <> [] /\ wr_temp (dk_writer (bn_desk b)) = true /\ dk_job (bn_desk b) = Some (Writing, false).
Lemma copying_begins other o b code st out err ok b' : bench_happen other o b (Ev (Finished code st out err ok)) = Ok b' -> bn_copies b' <> bn_copies b -> copying b'.
Proof.
  cbn [bench_happen]. unfold bench_finished. intros H N. destruct (dk_job (bn_desk b)) as [[[] []]|]; try (step H; injection H as <-; now elim N).
  destruct (process_success code st); [|step H; injection H as <-; now elim N]. destruct (wr_process (dk_writer (bn_desk b))); [|discriminate]. destruct (wr_temp (dk_writer (bn_desk b))) eqn:T; [|discriminate]. cbn [negb] in H. injection H as <-.
  split; [discriminate|]. split; [exact T|reflexivity].
Qed.
(** Whatever run of diff is started meanwhile, for comparing or for saving a diff again, and also a saveDiff that fails: the end of the copy is undefined,
    since it deletes the running process, or uses the temporary file that is not there. *)
Theorem C93_started_while_copying_undefined :
  forall other o b i e ok, copying b -> ml_info (dk_list (bn_desk b)) = Some i -> dk_settings (bn_desk b) <> None ->
  (e = Refresh \/ (e = Swap /\ (in_mode i = ComparingFiles \/ in_mode i = ComparingDirs)) \/ (e = Compare /\ runs_diff o i = true) \/
   exists opens url dir st, e = SaveDiff opens url dir st /\ st <> None) ->
  exists b1 why, bench_happen other o b (Ev e) = Ok b1 /\ bench_happen other o b1 (Copied ok) = UB why.
Proof.
  intros other o b i e ok (C & T & J) I ST H. destruct (bn_copies b) as [|[url text] copies] eqn:CO; [congruence|].
  assert (NB : replace_process (bn_desk b) = Ok tt) by (unfold replace_process, busy; rewrite J; reflexivity).
  assert (R : exists d, desk_compare_mode other (bn_desk b) = Ok d /\ dk_job d = Some (Comparison, true)).
  { unfold desk_compare_mode, the_info. rewrite I. cbn [bind]. unfold compare_process. destruct (process_made other (dk_settings (bn_desk b)) i [] (in_mode i) CustomDiffMode ST) as (p & EP). rewrite EP. cbn [bind]. rewrite NB. cbn [bind]. eauto. }
  assert (E : forall d, busy d = true \/ wr_temp (dk_writer d) = false -> exists why, bench_happen other o (mk_bench d ((url, text) :: copies)) (Copied ok) = UB why).
  { intros d B. cbn [bench_happen]. unfold bench_copied. cbn [bn_copies bn_desk]. destruct (wr_temp (dk_writer d)); cbn [negb]; [|eauto]. destruct B as [B|B]; [|discriminate]. unfold replace_process. rewrite B. cbn [bind]. eauto. }
  assert (K : exists d, happen other o (bn_desk b) e = Ok d /\ (busy d = true \/ wr_temp (dk_writer d) = false) /\ forall c s out err ok, e <> Finished c s out err ok).
  { assert (RU : forall d, dk_job d = Some (Comparison, true) -> busy d = true \/ wr_temp (dk_writer d) = false) by (intros d Q; left; unfold busy; now rewrite Q).
    destruct H as [->|[[-> M]|[[-> RD]|(opens & u & dir & st & -> & S)]]]; cbn [happen].
    - destruct R as (d & R & Q). exists d. split; [exact R|]. split; [auto|discriminate].
    - destruct R as (d & R & Q). exists d. split; [|split; [auto|discriminate]]. unfold desk_swap, the_info. rewrite I. cbn [bind]. destruct M as [M|M]; rewrite M; exact R.
    - unfold desk_compare, the_info. rewrite I. cbn [bind]. rewrite RD. destruct (compare_runs o _ i I RD) as (m & E'). rewrite E'. cbn [bind fst].
      destruct (compare_mode_facts (with_info (dk_list (bn_desk b)) (Some (with_mode i m)))) as [F1 _]. rewrite F1. cbn [with_info ml_info bind]. unfold compare_process.
      destruct (process_made other (dk_settings (bn_desk b)) (with_mode i m) [] (in_mode (with_mode i m)) CustomDiffMode ST) as (p & EP). rewrite EP. cbn [bind]. rewrite NB. cbn [bind]. eexists. split; [reflexivity|]. split; [now left|discriminate].
    - unfold desk_save_diff. destruct opens.
      + unfold the_info. rewrite I. cbn [bind]. unfold save_diff. cbn [negb]. unfold save_diff_process. destruct (process_made other st i dir UnknownMode CustomDiffMode S) as (p & EP). rewrite EP. cbn [bind]. rewrite NB. cbn [bind].
        eexists. split; [reflexivity|]. split; [now left|discriminate].
      + cbn. eexists. split; [reflexivity|]. split; [now right|discriminate]. }
  destruct K as (d & HD & BT & NF). destruct (E d BT) as [why W]. exists (mk_bench d ((url, text) :: copies)), why. split; [|exact W]. cbn [bench_happen]. rewrite HD, CO. cbn [bind]. destruct e; try reflexivity. exfalso. eapply NF. reflexivity.
Qed.
Print Assumptions C93_started_while_copying_undefined.

(** * What is safe *)
(** While the diff is copied, comparisons may be started (and end) and diffs opened, but no diff saved. *)
Definition no_saving (v : bench_event) : Prop := match v with Ev (SaveDiff _ _ _ _) => False | Copied _ => False | _ => True end.
Lemma calm_step other o b v b' : no_saving v -> bench_happen other o b v = Ok b' -> (exists x, dk_job (bn_desk b) = Some (Comparison, x)) \/ dk_job (bn_desk b) = None \/ dk_job (bn_desk b) = Some (Writing, false) ->
  bn_copies b' = bn_copies b /\ dk_writer (bn_desk b') = dk_writer (bn_desk b) /\ ((exists x, dk_job (bn_desk b') = Some (Comparison, x)) \/ dk_job (bn_desk b') = None \/ dk_job (bn_desk b') = Some (Writing, false)).
Proof.
  intros N H J. destruct v as [e|]; [|destruct N].
  assert (M : forall d, desk_compare_mode other (bn_desk b) = Ok d -> dk_writer d = dk_writer (bn_desk b) /\ dk_job d = Some (Comparison, true)).
  { intros d Q. unfold desk_compare_mode in Q. step Q. step Q. step Q. injection Q as <-. auto. }
  destruct e as [| | |opens url dir st|code st out err ok|]; cbn [bench_happen happen no_saving] in *; try contradiction.
  - step H. injection H as <-. cbn. unfold desk_compare in E. step E. destruct (runs_diff o a0); [|step E; injection E as <-; cbn; auto]. step E. step E. step E. step E. injection E as <-. cbn. eauto 6.
  - step H. injection H as <-. cbn. apply M in E as [E1 E2]. eauto 6.
  - step H. injection H as <-. cbn. unfold desk_swap in E. step E. destruct (in_mode a0); first [injection E as <-; auto|apply M in E as [E1 E2]; eauto 6].
  - unfold bench_finished in H. assert (D : desk_finished o (bn_desk b) code st out err ok = Ok (bn_desk b') /\ bn_copies b' = bn_copies b).
    { destruct J as [[x J]|[J|J]]; rewrite J in H; step H; injection H as <-; auto. }
    destruct D as [D DC]. split; [exact DC|]. unfold desk_finished in D. destruct J as [[[] J]|[J|J]]; rewrite J in D.
    + step D. injection D as D. rewrite <- D. cbn. auto.
    + injection D as D. rewrite <- D. rewrite J. eauto 6.
    + injection D as D. rewrite <- D. rewrite J. auto.
    + injection D as D. rewrite <- D. rewrite J. auto.
  - injection H as <-. cbn. unfold desk_not_started. destruct J as [[[] J]|[J|J]]; rewrite J; cbn; rewrite ?J; eauto 6.
Qed.
(** If no diff is saved meanwhile and no comparison is running when the copy ends, the diff is written where it was to be written, unless
    a file is there already or the copy fails, and the list and its settings are as they were left. *)
Theorem C93_copied_undisturbed_partial :
  forall other o b code st out err ok0 b0 vs b1 ok, bench_happen other o b (Ev (Finished code st out err ok0)) = Ok b0 -> bn_copies b0 <> bn_copies b ->          (* the copy begins *)
  Forall no_saving vs -> bench_history other o b0 vs = Ok b1 -> busy (bn_desk b1) = false ->
  exists b2, bench_happen other o b1 (Copied ok) = Ok b2 /\ bn_copies b2 = bn_copies b /\ dk_list (bn_desk b2) = dk_list (bn_desk b1) /\ dk_job (bn_desk b2) = None /\
    wr_out (dk_writer (bn_desk b2)) = wr_out (dk_writer (bn_desk b)) ++ [StatusFinishedWriting] /\
    forall u, wr_files (dk_writer (bn_desk b2)) u =
      if (ok && str_eqb (wr_url (dk_writer (bn_desk b))) u && match wr_files (dk_writer (bn_desk b)) u with None => true | Some _ => false end)%bool then Some out else wr_files (dk_writer (bn_desk b)) u.
Proof.
  intros other o b code st out err ok0 b0 vs b1 ok H N F HV NB. pose proof (copying_begins _ _ _ _ _ _ _ _ _ H N) as (C & T & J).
  assert (B0 : bn_copies b0 = (wr_url (dk_writer (bn_desk b)), out) :: bn_copies b /\ dk_writer (bn_desk b0) = dk_writer (bn_desk b)).
  { cbn [bench_happen] in H. unfold bench_finished in H. destruct (dk_job (bn_desk b)) as [[[] []]|]; try (step H; injection H as <-; now elim N).
    destruct (process_success code st); [|step H; injection H as <-; now elim N]. destruct (wr_process (dk_writer (bn_desk b))); [|discriminate]. destruct (negb (wr_temp (dk_writer (bn_desk b)))); [discriminate|]. injection H as <-. auto. }
  assert (G : forall vs b0 b1, Forall no_saving vs -> bench_history other o b0 vs = Ok b1 -> (exists x, dk_job (bn_desk b0) = Some (Comparison, x)) \/ dk_job (bn_desk b0) = None \/ dk_job (bn_desk b0) = Some (Writing, false) ->
     bn_copies b1 = bn_copies b0 /\ dk_writer (bn_desk b1) = dk_writer (bn_desk b0)).
  { clear. induction vs as [|v vs IH]; intros b0 b1 F H J; cbn [bench_history] in H; [injection H as <-; auto|]. inversion F as [|? ? F1 F2]; subst. step H. destruct (calm_step _ _ _ _ _ F1 E J) as (A & B & C). destruct (IH _ _ F2 H C) as [D W]. split; congruence. }
  destruct (G _ _ _ F HV (or_intror (or_intror J))) as [G1 G2]. destruct B0 as [B1 B2]. cbn [bench_happen]. unfold bench_copied. rewrite G1, B1. cbv zeta. rewrite G2, T. cbn [negb]. unfold replace_process. rewrite NB. cbn [bind].
  eexists. split; [reflexivity|]. cbn [bn_copies bn_desk dk_list dk_job dk_writer wr_out wr_files]. do 3 (split; [reflexivity|]). rewrite B2. split; [reflexivity|]. intros u. unfold file_copy.
  destruct (str_eqb (wr_url (dk_writer (bn_desk b))) u) eqn:EU.
  - apply PLevTable.str_eqb_ok in EU. rewrite EU. destruct (wr_files (dk_writer (bn_desk b)) u) eqn:FU; [rewrite FU; now rewrite andb_false_r|]. rewrite andb_true_r. destruct ok; cbn [andb]; [|exact FU].
    assert (Z : str_eqb u u = true) by now apply PLevTable.str_eqb_ok. now rewrite Z.
  - rewrite andb_false_r. cbn [andb]. destruct (wr_files _ (wr_url _)); [reflexivity|]. destruct ok; [|reflexivity]. now rewrite EU.
Qed.
Print Assumptions C93_copied_undisturbed_partial.

(** * Cases *)
Definition bench0 : bench := mk_bench desk0 [].
(** The copy of a saved diff is under way when the list is refreshed, and when a diff is saved again: both histories are undefined. *)
Theorem C93_started_while_copying_refuted :
  Forall (fun v => match bench_history no_url world bench0 [Ev (SaveDiff true (lit "d") [] opts); Ev (Finished 1 NormalExit two_files [] true); v; Copied true] with UB _ => True | _ => False end)
    [Ev Refresh; Ev (SaveDiff true (lit "e") [] opts); Ev (SaveDiff false (lit "e") [] opts)].
Proof. repeat (apply Forall_cons || apply Forall_nil); vm_compute; exact I. Qed.
Print Assumptions C93_started_while_copying_refuted.
(** The hypotheses of C93_copied_undisturbed_partial hold when a whole comparison takes place during the copy; those of C93_started_while_copying_undefined hold as the copy begins. *)
Example C93_example :
  match bench_history no_url world bench0 [Ev (SaveDiff true (lit "d") [] opts)] with
  | Ok b => match bench_happen no_url world b (Ev (Finished 1 NormalExit two_files [] true)) with
      | Ok b0 => bn_copies b0 <> bn_copies b /\ copying b0 /\ (exists i, ml_info (dk_list (bn_desk b0)) = Some i) /\ dk_settings (bn_desk b0) <> None /\
          match bench_history no_url world b0 [Ev Refresh; Ev (Finished 1 NormalExit two_files [] true)] with
          | Ok b1 => busy (bn_desk b1) = false /\ model_count (dk_list (bn_desk b1)) = 2 /\ wr_files (dk_writer (bn_desk b1)) (lit "d") = None
          | _ => False end
      | _ => False end
  | _ => False end.
Proof. vm_compute. split; [discriminate|]. split; [split; [discriminate|auto]|]. split; [eauto|]. split; [discriminate|auto]. Qed.
