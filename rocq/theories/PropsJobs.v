(** C78: one run of diff after the other. *)
From Coq Require Import String Permutation.
From Verif Require Import Base QtStr Diff Save Settings Parser SpecText SpecParse Blend Info ModelList SpecList Process SaveDiff Jobs SpecJobs PropsText PropsParse PList PListOpen PKin PropsList.
Local Open Scope Z_scope.

(** * What is said on the way *)
Definition dull (g : signal) : Prop := tells_start g = false /\ tells_end g = false.
Definition dully (s s' : mlist) : Prop := exists g, ml_out s' = ml_out s ++ g /\ Forall dull g.
Lemma dully_same s s' : ml_out s' = ml_out s -> dully s s'. Proof. intros E. exists []. now rewrite app_nil_r. Qed.
Lemma dully_refl s : dully s s. Proof. now apply dully_same. Qed.
Lemma dully_trans a b c : dully a b -> dully b c -> dully a c.
Proof. intros (g & E & F) (h & E' & F'). exists (g ++ h). rewrite E', E, <- app_assoc. split; [reflexivity|]. now apply Forall_app. Qed.
Lemma dully_emit g s s' : dull g -> dully s s' -> dully s (emit g s').
Proof. intros D H. eapply dully_trans; [exact H|]. exists [g]. split; [reflexivity|]. now constructor. Qed.
Lemma dully_update s s' : update_actions s = Ok s' -> dully s s'.
Proof. unfold update_actions. intros H. destruct (ml_models s), (ml_sel s), (ml_diff s); repeat step H; injection H as <-; now apply dully_same. Qed.
Lemma dully_first_model s s' : first_model s = Ok s' -> dully s s'.
Proof. unfold first_model. intros H. step H. destruct a; [discriminate|]. injection H as <-. now apply dully_same. Qed.
Lemma dully_first s s' : to_first_difference s = Ok s' -> dully s s'.
Proof. unfold to_first_difference, first_difference. intros H. step H. destruct a as [m x]. step H. step E0. injection E0 as <-. injection H as <-. now apply dully_same. Qed.
Lemma dully_blend s m text s' : blend_model s m text = Ok s' -> dully s s'.
Proof.
  unfold blend_model. intros H. step H. step H. step H. eapply dully_trans; [|eapply dully_first; exact H].
  eapply dully_trans; [|eapply dully_first_model; exact E1]. now apply dully_same.
Qed.
Lemma dully_dir o url l : forall s b s' b', blend_dir o url s l b = Ok (s', b') -> dully s s'.
Proof.
  induction l as [|m l IH]; intros s b s' b' H; cbn [blend_dir] in H; [injection H as <- _; apply dully_refl|]. step H. step H.
  eapply dully_trans; [eapply dully_blend; exact E0|eapply IH; exact H].
Qed.
Lemma dully_original o s url s' b : blend_original o s url = Ok (s', b) -> dully s s'.
Proof.
  unfold blend_original. intros H. destruct (os_is_dir o url); [step H; eapply dully_dir; exact H|]. destruct (os_is_file o url); [|injection H as <- _; apply dully_refl].
  step H. step H. step H. injection H as <- _. eapply dully_blend; exact E1.
Qed.
Lemma dully_show s s' : show s = Ok s' -> dully s s'.
Proof. unfold show. intros H. step H. injection H as <-. apply dully_emit; [split; reflexivity|]. apply dully_emit; [split; reflexivity|]. apply dully_refl. Qed.
Lemma dully_clear s : dully s (clear s).
Proof. unfold clear. apply dully_emit; [split; reflexivity|]. destruct (ml_models s); now apply dully_same. Qed.
Lemma dully_depth i l : forall s s', depth_and_applied i s l = Ok s' -> dully s s'.
Proof.
  induction l as [|m l IH]; intros s s' H; cbn [depth_and_applied] in H; [injection H as <-; apply dully_refl|]. step H. step H.
  eapply dully_trans; [|eapply IH; exact H]. now apply dully_same.
Qed.
Lemma dully_parse o s text s' b : parse_diff_output o s text = Ok (s', b) -> dully s s'.
Proof.
  unfold parse_diff_output. intros H. step H. step H. set (sz := with_info _ _) in H.
  assert (Z : dully s sz) by (eapply dully_trans; [apply (dully_emit (DiffString text) s s); [split; reflexivity|apply dully_refl]|unfold sz; destruct (po_models a); now apply dully_same]).
  clearbody sz. destruct (ml_models sz).
  - step H. step H. step H. injection H as <- _. apply dully_emit; [split; reflexivity|]. eapply dully_trans; [|eapply dully_first; exact E2].
    eapply dully_trans; [|eapply dully_first_model; exact E1]. destruct (po_malformed a); [apply dully_emit; [split; reflexivity|]|]; exact Z.
  - injection H as <- _. exact Z.
Qed.
Lemma dully_open o s s' b : open_and_blend o s = Ok (s', b) -> dully s s'.
Proof.
  unfold open_and_blend. intros H. step H. step H. destruct a0 as [s1 ok]. pose proof (dully_trans _ _ _ (dully_clear s) (dully_parse _ _ _ _ _ E0)) as D1.
  destruct (negb ok); [injection H as <- _; apply dully_emit; [split; reflexivity|exact D1]|]. step H. step H. step H. step H. destruct a3 as [s3 ok3].
  pose proof (dully_trans _ _ _ (dully_trans _ _ _ D1 (dully_depth _ _ _ _ E3)) (dully_original _ _ _ _ _ E4)) as D3.
  destruct (negb ok3); [injection H as <- _; apply dully_emit; [split; reflexivity|exact D3]|]. step H. step H. injection H as <- _.
  eapply dully_trans; [exact D3|]. eapply dully_trans; [eapply dully_update; exact E5|eapply dully_show; exact E6].
Qed.
(** A finished comparison tells its end exactly once, as the last thing. *)
Lemma finish_says o s success st out err s' : slot_diff_process_finished o s success st out err = Ok s' ->
  exists g e, ml_out s' = ml_out s ++ g ++ [e] /\ Forall dull g /\ tells_end e = true /\ tells_start e = false.
Proof.
  unfold slot_diff_process_finished. intros H. destruct (negb (ml_process s)); [discriminate|]. step H. injection H as <-. cbn [with_process ml_out]. destruct success.
  - step E. destruct a0 as [s1 ok]. step E. injection E as <-. assert (D : dully s a0).
    { eapply dully_trans; [apply (dully_emit (Status Parsing) s s); [split; reflexivity|apply dully_refl]|]. eapply dully_trans; [eapply dully_parse; exact E0|]. destruct (negb ok).
      - injection E1 as <-. apply dully_emit; [split; reflexivity|apply dully_refl].
      - step E1. destruct (mode_eqb (in_mode a) ShowingDiff).
        + cbn [bind] in E1. step E1. eapply dully_trans; [eapply dully_update; exact E2|eapply dully_show; exact E1].
        + destruct (blend_original o s1 (in_local_source a)) as [[q b]| |] eqn:EB; try discriminate E1. cbn [bind fst] in E1. step E1.
          eapply dully_trans; [eapply dully_original; exact EB|]. eapply dully_trans; [eapply dully_update; exact E2|eapply dully_show; exact E1]. }
    destruct D as (g & O & F). exists g, (Status FinishedParsing). cbn [emit ml_out]. rewrite O, <- app_assoc. auto.
  - destruct st; injection E as <-; cbn [emit ml_out]; [exists [], (Error Identical)|exists [], (Error (ProcessError err))]; auto.
Qed.

(** * What the calls need *)
Definition set_up (o : outside) (d : desk) : Prop :=
  (exists i, ml_info (dk_list d) = Some i /\ readable (os_read o (in_local_source i)) /\ readable (os_read o (in_local_destination i))) /\
  dk_settings d <> None /\
  match dk_job d with
  | Some (Comparison, true) => ml_process (dk_list d) = true
  | Some (Writing, true) => wr_process (dk_writer d) <> None /\ wr_temp (dk_writer d) = true
  | _ => True
  end.
Lemma readable_parses sort t : readable t -> exists p, parse sort (split_lines t) = Ok p.
Proof. intros (ls & lines & L & F & S). apply C01_split_lossless in L. rewrite L. eapply C27_parse_defined_on_safe_input_partial; eauto. Qed.
Lemma process_made other st i dir md dm : st <> None -> exists p, new_process other st dm (in_local_source i) (in_local_destination i) dir md = Ok p.
Proof.
  intros N. destruct st as [x|]; [|congruence]. unfold new_process, write_default_command_line. destruct dm, md; cbn [bind]; eexists; reflexivity.
Qed.
Lemma count_app {A} (p : A -> bool) l l' : how_many p (l ++ l') = (how_many p l + how_many p l')%nat.
Proof. unfold how_many. now rewrite filter_app, app_length. Qed.
Lemma count_dull g : Forall dull g -> how_many tells_start g = 0%nat /\ how_many tells_end g = 0%nat.
Proof. unfold how_many. induction 1 as [|e g [D1 D2] _ [I1 I2]]; [auto|]. cbn. rewrite D1, D2. auto. Qed.
(** Starts and ends told so far. *)
Definition even (d : desk) : Prop :=
  (how_many tells_start (ml_out (dk_list d)) = how_many tells_end (ml_out (dk_list d)) + comparing_now d)%nat.
Lemma compare_mode_out s : exists g, ml_out (compare_mode s) = ml_out s ++ g ++ [Status RunningDiff] /\ Forall dull g.
Proof.
  destruct (dully_clear s) as (g & O & F). exists g. split; [|exact F]. unfold compare_mode. cbn [emit with_process ml_out]. now rewrite O, <- app_assoc.
Qed.
Lemma compare_mode_facts s : ml_info (compare_mode s) = ml_info s /\ ml_process (compare_mode s) = true.
Proof. unfold compare_mode, clear. destruct (ml_models s); auto. Qed.
Definition sides (i : info) : list str := [in_local_source i; in_local_destination i].
Definition same_sides (i j : info) : Prop := forall x, In x (sides i) <-> In x (sides j).
Lemma compare_runs o s i : ml_info s = Some i -> runs_diff o i = true ->
  exists m, compare o s = Ok (compare_mode (with_info s (Some (with_mode i m))), true).
Proof.
  intros I R. unfold compare, the_info. rewrite I. cbn [bind]. unfold runs_diff in R.
  destruct (os_is_dir o (in_local_source i)), (os_is_dir o (in_local_destination i)); cbn [andb negb] in *; try discriminate R; [eauto|].
  destruct (os_is_diff o (in_local_source i)), (os_is_diff o (in_local_destination i)); try discriminate R; cbn [andb negb]; eauto.
Qed.
Lemma compare_blends o s i : ml_info s = Some i -> runs_diff o i = false ->
  exists j, compare o s = open_and_blend o (with_info s (Some j)) /\
    ((in_local_source j, in_local_destination j) = (in_local_source i, in_local_destination i) \/ (in_local_source j, in_local_destination j) = (in_local_destination i, in_local_source i)).
Proof.
  intros I R. unfold compare, the_info. rewrite I. cbn [bind]. unfold runs_diff in R.
  destruct (os_is_dir o (in_local_source i)), (os_is_dir o (in_local_destination i)); cbn [andb negb] in *; try discriminate R; [eexists; split; [reflexivity|auto]..|].
  destruct (os_is_diff o (in_local_source i)), (os_is_diff o (in_local_destination i)); try discriminate R; cbn [andb negb]; (eexists; split; [reflexivity|auto]).
Qed.
Lemma blend_defined o s i : (forall l, Permutation (os_sort o l) l) -> ml_info s = Some i -> readable (os_read o (in_local_destination i)) ->
  exists s' b g f, open_and_blend o s = Ok (s', b) /\ ml_info s' = Some (with_parsed i g f).
Proof.
  intros HP I R. destruct (readable_parses (os_sort o) _ R) as (p & E). destruct (po_models p) as [ms|] eqn:EM.
  - destruct (open_and_blend_ok o s p ms i I (conj HP (conj E EM))) as (s' & E' & _ & _ & I' & _). eauto 6.
  - assert (I0 : ml_info (clear s) = Some i) by (unfold clear; destruct (ml_models s); exact I).
    destruct (parse_output_fails o (clear s) _ p i (conj E EM) I0) as (s1 & E1 & _ & _ & _ & _ & _ & I1 & _).
    unfold open_and_blend, the_info. rewrite I0. cbn [bind]. rewrite E1. cbn [bind negb]. eauto 8.
Qed.
Lemma finish_defined o s i success st out err : (forall l, Permutation (os_sort o l) l) -> ml_process s = true -> ml_info s = Some i -> readable out ->
  exists s' j, slot_diff_process_finished o s success st out err = Ok s' /\ ml_info s' = Some j /\ in_local_source j = in_local_source i /\ in_local_destination j = in_local_destination i.
Proof.
  intros HP P I R. destruct success.
  - destruct (readable_parses (os_sort o) _ R) as (p & E). destruct (po_models p) as [ms|] eqn:EM.
    + destruct (process_ok o s p ms i st out err P I (conj HP (conj E EM))) as (s' & E' & _ & _ & _ & I' & _). eexists _, _. split; [exact E'|]. split; [exact I'|]. auto.
    + unfold slot_diff_process_finished. rewrite P. cbn [negb].
      destruct (parse_output_fails o (emit (Status Parsing) s) out p i (conj E EM) I) as (s1 & E1 & _ & _ & _ & _ & _ & I1 & _). rewrite E1. cbn [bind negb].
      eexists _, _. split; [reflexivity|]. split; [exact I1|]. auto.
  - unfold slot_diff_process_finished. rewrite P. cbn [negb]. destruct st; cbn [bind]; (eexists _, _; split; [reflexivity|]; split; [exact I|]; auto).
Qed.
Definition alive (d : desk) : Prop := match dk_job d with Some (_, false) => False | _ => True end.
Lemma step_ok other o d e : (forall l, Permutation (os_sort o l) l) -> set_up o d -> sound e -> (is_call e = true -> busy d = false) ->
  exists d', happen other o d e = Ok d' /\ set_up o d' /\ (e <> NotStarted -> alive d -> even d -> alive d' /\ even d').
Proof.
  intros HP ((i & I & R1 & R2) & ST & J) SD PA.
  assert (RUN : busy d = false -> exists d', desk_compare_mode other d = Ok d' /\ set_up o d' /\ (alive d -> even d -> alive d' /\ even d')).
  { intros NR. unfold desk_compare_mode, the_info. rewrite I. cbn [bind]. unfold compare_process. destruct (process_made other (dk_settings d) i [] (in_mode i) CustomDiffMode ST) as (p & EP). rewrite EP. cbn [bind].
    unfold replace_process. rewrite NR. cbn [bind]. eexists. split; [reflexivity|]. destruct (compare_mode_facts (dk_list d)) as [F1 F2]. split.
    - split; [exists i; cbn [dk_list]; rewrite F1; auto|]. split; [exact ST|exact F2].
    - intros AL EV. split; [exact Logic.I|]. unfold even, comparing_now in *. cbn [dk_list dk_job]. destruct (compare_mode_out (dk_list d)) as (g & O & F). rewrite O, !count_app.
      destruct (count_dull g F) as [C1 C2]. rewrite C1, C2. unfold busy, alive in *. destruct (dk_job d) as [[? []]|]; try discriminate; try contradiction. cbn. lia. }
  destruct e as [| | |opens url dir st|code st out err ok|]; cbn [happen is_call] in *.
  - (* compare *)
    specialize (PA eq_refl). unfold desk_compare, the_info. rewrite I. cbn [bind]. destruct (runs_diff o i) eqn:RD.
    + destruct (compare_runs o _ i I RD) as (m & E). rewrite E. cbn [bind fst]. destruct (compare_mode_facts (with_info (dk_list d) (Some (with_mode i m)))) as [F1 F2]. rewrite F1. cbn [with_info ml_info bind]. unfold compare_process.
      destruct (process_made other (dk_settings d) (with_mode i m) [] (in_mode (with_mode i m)) CustomDiffMode ST) as (p & EP). rewrite EP. cbn [bind]. unfold replace_process. rewrite PA. cbn [bind]. eexists. split; [reflexivity|]. split.
      * split; [exists (with_mode i m); cbn [dk_list]; rewrite F1; auto|]. split; [exact ST|exact F2].
      * intros _ AL EV. split; [exact Logic.I|]. unfold even, comparing_now in *. cbn [dk_list dk_job]. destruct (compare_mode_out (with_info (dk_list d) (Some (with_mode i m)))) as (g & O & F). rewrite O, !count_app.
        destruct (count_dull g F) as [C1 C2]. rewrite C1, C2. cbn [with_info ml_out]. unfold busy, alive in *. destruct (dk_job d) as [[? []]|]; try discriminate; try contradiction. cbn. lia.
    + destruct (compare_blends o _ i I RD) as (j & E & SJ). rewrite E.
      assert (RJ : readable (os_read o (in_local_source j)) /\ readable (os_read o (in_local_destination j))) by (destruct SJ as [SJ|SJ]; injection SJ as -> ->; auto).
      destruct (blend_defined o (with_info (dk_list d) (Some j)) j HP eq_refl (proj2 RJ)) as (s' & b & g & f & EB & IB). rewrite EB. cbn [bind fst]. eexists. split; [reflexivity|]. split.
      * split; [exists (with_parsed j g f); cbn [dk_list]; rewrite IB; auto|]. split; [exact ST|]. cbn [dk_job]. unfold busy in PA. destruct (dk_job d) as [[[] []]|]; try discriminate; exact Logic.I.
      * intros _ AL EV. split; [exact AL|]. unfold even, comparing_now in *. cbn [dk_list dk_job]. destruct (dully_open _ _ _ _ EB) as (h & O & F). cbn [with_info ml_out] in O. rewrite O, !count_app.
        destruct (count_dull h F) as [C1 C2]. rewrite C1, C2. lia.
  - destruct (RUN (PA eq_refl)) as (d' & E & S & V). exists d'. auto.
  - unfold desk_swap, the_info. rewrite I. cbn [bind]. destruct (RUN (PA eq_refl)) as (d' & E & S & V).
    assert (N : exists d', Ok d = Ok d' /\ set_up o d' /\ (Swap <> NotStarted -> alive d -> even d -> alive d' /\ even d')).
    { exists d. split; [reflexivity|]. split; [|auto]. split; [eauto|auto]. }
    destruct (in_mode i); try exact N; exists d'; auto.
  - (* saveDiff *)
    specialize (PA eq_refl). unfold desk_save_diff. destruct opens.
    + unfold the_info. rewrite I. cbn [bind]. unfold save_diff. cbn [negb]. unfold save_diff_process. destruct (process_made other st i dir UnknownMode CustomDiffMode SD) as (p & EP). rewrite EP. cbn [bind]. unfold replace_process. rewrite PA. cbn [bind fst].
      eexists. split; [reflexivity|]. split.
      * split; [exists i; auto|]. split; [exact ST|]. cbn. split; [discriminate|reflexivity].
      * intros _ AL EV. split; [exact Logic.I|]. unfold even, comparing_now in *. cbn [dk_list dk_job]. unfold busy, alive in *. destruct (dk_job d) as [[? []]|]; try discriminate; try contradiction. exact EV.
    + cbn. eexists. split; [reflexivity|]. split.
      * split; [exists i; auto|]. split; [exact ST|]. cbn [dk_job]. unfold busy in PA. destruct (dk_job d) as [[[] []]|]; try discriminate; exact Logic.I.
      * intros _ AL EV. split; [exact AL|exact EV].
  - (* finished *)
    unfold desk_finished. destruct (dk_job d) as [[[] []]|] eqn:JB; try (exists d; split; [reflexivity|]; split; [split; [eauto|split; [exact ST|rewrite JB; exact Logic.I]]|auto]).
    + destruct (finish_defined o (dk_list d) i (process_success code st) st out err HP J I SD) as (s' & j & E & IJ & S1 & S2). rewrite E. cbn [bind]. eexists. split; [reflexivity|]. split.
      * split; [exists j; cbn [dk_list]; rewrite S1, S2; auto|]. split; [exact ST|exact Logic.I].
      * intros _ _ EV. split; [exact Logic.I|]. unfold even, comparing_now in *. rewrite JB in EV. cbn [dk_list dk_job]. destruct (finish_says _ _ _ _ _ _ _ E) as (g & e & O & F & T1 & T2). rewrite O, !count_app.
        destruct (count_dull g F) as [C1 C2]. rewrite C1, C2. unfold how_many at 2 4. cbn [filter]. rewrite T1, T2. cbn [length]. lia.
    + destruct J as [J1 J2]. unfold slot_write_diff_output. destruct (wr_process (dk_writer d)) as [p|] eqn:WP; [|congruence]. rewrite J2. cbn [negb].
      assert (X : exists w, (if process_success code st then Ok (mk_writer false [] None (file_copy ok (wr_files (dk_writer d)) (wr_url (dk_writer d)) out) (wr_out (dk_writer d) ++ [StatusFinishedWriting])) else Ok (mk_writer false [] None (wr_files (dk_writer d)) (wr_out (dk_writer d)))) = Ok w) by (destruct (process_success code st); eauto).
      destruct X as (w & EW). rewrite EW. cbn [bind]. eexists. split; [reflexivity|]. split.
      * split; [exists i; auto|]. split; [exact ST|exact Logic.I].
      * intros _ _ EV. split; [exact Logic.I|]. unfold even, comparing_now in *. rewrite JB in EV. cbn [dk_list dk_job]. exact EV.
  - exists (desk_not_started d). split; [reflexivity|]. split; [|congruence]. unfold desk_not_started. destruct (dk_job d) as [[[] []]|] eqn:JB; (split; [exists i; auto|]; split; [exact ST|]); try exact Logic.I; rewrite JB; exact Logic.I.
Qed.

(** * C78 *)
(** As long as its user waits for each run of diff to end, every history of comparisons, refreshes, swaps and saved diffs is
    defined, whatever diff prints (if it can be read, C27), in whatever way it ends and whether or not it starts; and as long as
    it starts, every comparison told is ended by exactly one message: parsed, identical, or the error of diff. *)
Theorem C78_patient_history_defined :
  forall other o d i l, (forall l, Permutation (os_sort o l) l) -> ml_info (dk_list d) = Some i ->
  readable (os_read o (in_local_source i)) -> readable (os_read o (in_local_destination i)) -> dk_settings d <> None -> dk_job d = None ->
  Forall sound l -> patient other o d l ->
  exists d', history other o d l = Ok d' /\
    (~ In NotStarted l -> how_many tells_start (ml_out (dk_list d)) = how_many tells_end (ml_out (dk_list d)) ->
     how_many tells_start (ml_out (dk_list d')) = (how_many tells_end (ml_out (dk_list d')) + comparing_now d')%nat).
Proof.
  intros other o d i l HP I R1 R2 ST J SD PA. assert (SU : set_up o d) by (split; [eauto|split; [exact ST|rewrite J; exact Logic.I]]).
  assert (G : forall l d, set_up o d -> Forall sound l -> patient other o d l -> exists d', history other o d l = Ok d' /\ (~ In NotStarted l -> alive d -> even d -> even d')).
  { clear -HP. induction l as [|e l IH]; intros d SU SD PA; [exists d; auto|]. inversion_clear SD as [|? ? S1 S2]. destruct PA as [P1 P2].
    destruct (step_ok other o d e HP SU S1 P1) as (d1 & E & SU1 & EV). destruct (IH d1 SU1 S2 (P2 d1 E)) as (d' & E' & EV'). exists d'. cbn [history]. rewrite E. cbn [bind]. split; [exact E'|].
    intros N A B. destruct EV as [A1 B1]; auto; [intros ->; apply N; now left|]. apply EV'; auto. intros X. apply N. now right. }
  destruct (G l d SU SD PA) as (d' & E & EV). exists d'. split; [exact E|]. intros N Q. apply EV; [exact N|unfold alive; now rewrite J|]. unfold even, comparing_now. rewrite J. lia.
Qed.
Print Assumptions C78_patient_history_defined.
(** Saving a diff leaves the list alone, and comparing leaves the files alone. *)
Theorem C78_jobs_apart :
  forall other o d e d', happen other o d e = Ok d' ->
  match e with
  | SaveDiff _ _ _ _ => dk_list d' = dk_list d /\ wr_files (dk_writer d') = wr_files (dk_writer d)
  | Compare | Refresh | Swap => dk_writer d' = dk_writer d
  | Finished _ _ _ _ _ => (dk_job d = Some (Writing, true) -> dk_list d' = dk_list d) /\ (dk_job d <> Some (Writing, true) -> dk_writer d' = dk_writer d)
  | NotStarted => dk_list d' = dk_list d /\ dk_writer d' = dk_writer d
  end.
Proof.
  intros other o d e d' H. assert (M : desk_compare_mode other d = Ok d' -> dk_writer d' = dk_writer d) by (unfold desk_compare_mode; intros Q; step Q; step Q; step Q; now injection Q as <-).
  destruct e as [| | |opens url dir st|code st out err ok|]; cbn [happen] in H.
  - unfold desk_compare in H. step H. destruct (runs_diff o a); repeat step H; now injection H as <-.
  - auto.
  - unfold desk_swap in H. step H. destruct (in_mode a); auto; now injection H as <-.
  - unfold desk_save_diff in H. destruct opens; [|cbn in H; injection H as <-; auto]. step H. step H. step H. unfold save_diff in E0. cbn [negb] in E0. step E0. injection E0 as <-. injection H as <-. auto.
  - unfold desk_finished in H. destruct (dk_job d) as [[[] []]|]; try (injection H as <-; auto; fail); step H; injection H as <-; (split; [intros Q; try discriminate Q; reflexivity|intros Q; try reflexivity; now elim Q]).
  - injection H as <-. unfold desk_not_started. destruct (dk_job d) as [[? []]|]; auto.
Qed.
Print Assumptions C78_jobs_apart.

(** False of the code without the waiting: whatever is running, starting another run is undefined. *)
Theorem C78_second_run_undefined :
  forall other o d i e, busy d = true -> ml_info (dk_list d) = Some i -> dk_settings d <> None ->
  (e = Refresh \/ (e = Swap /\ (in_mode i = ComparingFiles \/ in_mode i = ComparingDirs)) \/ (e = Compare /\ runs_diff o i = true) \/
   exists url dir st, e = SaveDiff true url dir st /\ st <> None) ->
  exists why, happen other o d e = UB why.
Proof.
  intros other o d i e B I ST H.
  assert (R : exists why, desk_compare_mode other d = UB why).
  { unfold desk_compare_mode, the_info. rewrite I. cbn [bind]. unfold compare_process. destruct (process_made other (dk_settings d) i [] (in_mode i) CustomDiffMode ST) as (p & EP). rewrite EP. cbn [bind].
    unfold replace_process. rewrite B. cbn [bind]. eauto. }
  destruct H as [->|[[-> M]|[[-> RD]|(url & dir & st & -> & S)]]]; cbn [happen].
  - exact R.
  - unfold desk_swap, the_info. rewrite I. cbn [bind]. destruct M as [M|M]; rewrite M; exact R.
  - unfold desk_compare, the_info. rewrite I. cbn [bind]. rewrite RD. destruct (compare_runs o _ i I RD) as (m & E). rewrite E. cbn [bind fst].
    destruct (compare_mode_facts (with_info (dk_list d) (Some (with_mode i m)))) as [F1 _]. rewrite F1. cbn [with_info ml_info bind]. unfold compare_process.
    destruct (process_made other (dk_settings d) (with_mode i m) [] (in_mode (with_mode i m)) CustomDiffMode ST) as (p & EP). rewrite EP. cbn [bind]. unfold replace_process. rewrite B. cbn [bind]. eauto.
  - unfold desk_save_diff, the_info. rewrite I. cbn [bind]. unfold save_diff. cbn [negb]. unfold save_diff_process. destruct (process_made other st i dir UnknownMode CustomDiffMode S) as (p & EP). rewrite EP. cbn [bind]. unfold replace_process. rewrite B. cbn [bind]. eauto.
Qed.
Print Assumptions C78_second_run_undefined.

(** * Cases *)
Definition no_url : str -> str -> str := fun _ t => t.
Definition desk0 : desk := mk_desk ready (mk_writer false [] None (fun _ => None) []) None (Some fresh_settings).
Definition opts : option settings := Some fresh_settings.
(** Three impatient histories: two comparisons; a diff saved while comparing; and a saveDiff that fails, since no temporary file
    can be opened, while the diff of an earlier one is running. *)
Theorem C78_impatient_history_refuted :
  Forall (fun l => Forall sound l /\ match history no_url world desk0 l with UB _ => True | _ => False end)
    [[Refresh; Refresh]; [Refresh; SaveDiff true (lit "d") [] opts];
     [SaveDiff true (lit "d") [] opts; SaveDiff false (lit "e") [] opts; Finished 1 NormalExit [] [] true]].
Proof.
  assert (R : readable []). { exists [], []. split; [split; [reflexivity|constructor|intros ? ? ? []|intros [] ? ? Q; discriminate]|]. split; [constructor|]. split; [constructor|intros [] ? Q; discriminate|intros [] ? ? Q; discriminate]. }
  assert (N : opts <> None) by discriminate.
  repeat (apply Forall_cons || apply Forall_nil); (split; [repeat (apply Forall_cons || apply Forall_nil); cbn [sound]; auto|vm_compute; exact I]).
Qed.
Print Assumptions C78_impatient_history_refuted.
(** The end of saveDiff is not told when there is no difference to write or diff fails; and nothing is told of a program that
    cannot be started. *)
Theorem C78_end_told_refuted :
  (forall other o d url dir code st out err ok d1 d2, happen other o d (SaveDiff true url dir opts) = Ok d1 ->
     process_success code st = false -> happen other o d1 (Finished code st out err ok) = Ok d2 ->
     wr_out (dk_writer d2) = wr_out (dk_writer d) ++ [StatusRunningDiff] /\ dk_list d2 = dk_list d /\ dk_job d2 = None) /\
  (forall other o d d1, happen other o d Refresh = Ok d1 ->
     happen other o d1 NotStarted = Ok (mk_desk (dk_list d1) (dk_writer d1) (Some (Comparison, false)) (dk_settings d1))).
Proof.
  split.
  - intros other o d url dir code st out err ok d1 d2 H P F. cbn [happen] in *. unfold desk_save_diff in H. step H. step H. step H. unfold save_diff in E0. cbn [negb] in E0. step E0. injection E0 as <-. injection H as <-.
    unfold desk_finished in F. cbn [dk_job dk_writer dk_list fst] in F. unfold slot_write_diff_output in F. cbn [wr_process wr_temp negb] in F. rewrite P in F. cbn [bind] in F. injection F as <-. auto.
  - intros other o d d1 H. cbn [happen] in *. unfold desk_refresh, desk_compare_mode in H. step H. step H. step H. injection H as <-. reflexivity.
Qed.
Print Assumptions C78_end_told_refuted.
(** A patient history: compare, save the diff, compare again (identical), refresh (diff does not start), refresh (diff crashes),
    save the diff again to the same place. *)
Definition day : list event :=
  [Compare; Finished 1 NormalExit two_files [] true; SaveDiff true (lit "d") [] opts; Finished 1 NormalExit two_files [] true;
   Refresh; Finished 0 NormalExit [] [] true; Refresh; NotStarted; Refresh; Finished 0 CrashExit [] (lit "killed") true;
   SaveDiff false (lit "e") [] opts; SaveDiff true (lit "d") [] opts; Finished 1 NormalExit (lit "other") [] true].
Fixpoint waits (d : desk) (l : list event) : bool :=
  match l with
  | [] => true
  | e :: l' => (negb (is_call e && busy d) && match happen no_url world d e with Ok d' => waits d' l' | _ => true end)%bool
  end.
Lemma waits_patient l : forall d, waits d l = true -> patient no_url world d l.
Proof.
  induction l as [|e l IH]; intros d H; [exact I|]. cbn [waits] in H. apply andb_true_iff in H as [H1 H2]. split.
  - intros C. rewrite C in H1. now destruct (busy d).
  - intros d' E. rewrite E in H2. auto.
Qed.
Lemma readable_nothing : readable [].
Proof. exists [], []. split; [split; [reflexivity|constructor|intros ? ? ? []|intros [] ? ? Q; discriminate]|]. split; [constructor|]. split; [constructor|intros [] ? Q; discriminate|intros [] ? ? Q; discriminate]. Qed.
Definition easy (l : str) : bool :=
  (negb (starts_with (lit "\ No newline") l) && match l with [] => false | _ => true end && N.ltb (N.of_nat (length l)) 65535 && negb (starts_with (lit "*** ") l) && negb (starts_with (lit "--- ") l))%bool.
Lemma starts_self a b : starts_with a (a ++ b) = true.
Proof. induction a as [|x a IH]; [now destruct b|]. cbn. now rewrite N.eqb_refl. Qed.
(** A text without context headers that does not end in a file header. *)
Lemma readable_easy t ls l : split_lines t = ls ++ [l] -> forallb (fun l => negb (starts_with (lit "\ No newline") l) && match l with [] => false | _ => true end && N.ltb (N.of_nat (length l)) 65535 && negb (starts_with (lit "*** ") l))%bool ls = true ->
  easy l = true -> readable t.
Proof.
  intros E F EL. exists (ls ++ [l]), (ls ++ [l]). split; [now apply C01_split_lossless|]. rewrite forallb_forall in F.
  assert (G : forall x, In x (ls ++ [l]) -> ~ no_newline_marker x /\ x <> [] /\ (N.of_nat (length x) < 65535)%N /\ starts_with (lit "*** ") x = false).
  { intros x H. assert (Q : (negb (starts_with (lit "\ No newline") x) && match x with [] => false | _ => true end && N.ltb (N.of_nat (length x)) 65535 && negb (starts_with (lit "*** ") x))%bool = true).
    { apply in_app_or in H as [H|[<-|[]]]; [now apply F|]. unfold easy in EL. now apply andb_true_iff in EL as [EL _]. }
    rewrite !andb_true_iff, !negb_true_iff in Q. destruct Q as (((Q1 & Q2) & Q3) & Q4). rewrite <- marker_iff. split; [congruence|]. split; [now destruct x|]. split; [now apply N.ltb_lt|exact Q4]. }
  split; [|split].
  - clear -G. induction (ls ++ [l]) as [|x k IH]; [constructor|]. apply fo_keep; [apply G; now left|]. apply IH. intros y H. apply G. now right.
  - apply Forall_forall. intros x H. apply G in H. tauto.
  - intros pre x H. apply app_inj_tail in H as [_ ->]. unfold easy in EL. rewrite starts_self, andb_false_r in EL. discriminate.
  - intros pre x post H. exfalso. assert (Q : In (lit "*** " ++ x) (ls ++ [l])) by (rewrite H; apply in_or_app; right; now left). apply G in Q as (_ & _ & _ & Q). rewrite starts_self in Q. discriminate.
Qed.
Lemma readable_two_files : readable two_files.
Proof.
  assert (X : exists ls l, split_lines two_files = ls ++ [l] /\ ls = removelast (split_lines two_files) /\ l = last (split_lines two_files) []) by (eexists _, _; split; [apply app_removelast_last; discriminate|]; auto).
  destruct X as (ls & l & E & E1 & E2). apply (readable_easy _ ls l E); subst; vm_compute; reflexivity.
Qed.
Example C78_example :
  Forall sound day /\ patient no_url world desk0 day /\ readable (os_read world (lit "any")) /\
  match history no_url world desk0 day with
  | Ok d => map tells_start (filter (fun g => tells_start g || tells_end g)%bool (ml_out (dk_list d))) = [true; false; true; false; true; true; false] /\
            wr_files (dk_writer d) (lit "d") = Some two_files /\ wr_out (dk_writer d) = [StatusRunningDiff; StatusFinishedWriting; CannotOpenTemporary; StatusRunningDiff; StatusFinishedWriting]
  | _ => False
  end.
Proof.
  split; [|split; [|split]].
  - assert (O : readable (lit "other")) by (apply (readable_easy _ [] (lit "other")); vm_compute; reflexivity).
    assert (N : opts <> None) by discriminate. pose proof readable_nothing. pose proof readable_two_files. repeat (apply Forall_cons || apply Forall_nil); cbn [sound]; auto.
  - apply waits_patient. vm_compute. reflexivity.
  - apply readable_nothing.
  - vm_compute. auto.
Qed.
