(** C102: slots that call the list back. *)
From Coq Require Import String Permutation.
From Verif Require Import Base QtStr Diff Save Parser SpecHistory SpecPatch SpecParse Blend SpecBlend Info ModelList Life Reentrant SpecReentrant SpecSignals SpecList PList PListOpen PSignals PropsList PropsSignals PReentrant.
Local Open Scope Z_scope.

(** Slots that do nothing change nothing: these are the calls of Life.v. *)
Theorem C102_silent_slots : forall o s h, occur_k silent o s h = occur o s h.
Proof. exact occur_silent. Qed.
Print Assumptions C102_silent_slots.
(** A call on a list that shows something goes on with what its slots leave: if they leave, from whatever signal, a list that shows
    something ([L]: with the models it had), so does the call, and after a move the actions fit what is then shown. *)
Theorem C102_a_call_goes_on :
  forall o L k s op h, gentle L k -> in_order_for L s -> call_of s op = Ok h -> (saves_all op -> L <> None) ->
  goes_well (fun s' => in_order_for L s' /\ (refreshes op = true -> up_to_date s')) (occur_k k o s h).
Proof. intros o L k s op h. apply offered_well. Qed.
Print Assumptions C102_a_call_goes_on.
(** Slots that call the list back, whose calls call it back again, and so on: to any depth nothing dangles, whatever they choose to call
    among the moves, applies and saves, and, unless saveAll() is among them, the opening of texts that can be read. *)
Theorem C102_to_any_depth :
  forall o L calls n s h, (forall l, Permutation (os_sort o l) l) -> well_behaved o L calls -> in_order_for L s -> may_call o L s h ->
  goes_well (in_order_for L) (occur_k (nested calls o n) o s h).
Proof.
  intros o L calls n s h PE WB O H. apply allowed_well; [exact PE| |now apply nested_gentle|exact O|exact H]. intros EL g s' E. destruct n; cbn [nested]; rewrite (proj2 WB EL g s' E); reflexivity.
Qed.
Print Assumptions C102_to_any_depth.
(** Nor are they told anything that is not so, however much the slots called before have changed: a slot that does the worst whenever it is
    told something untrue (outside the signals before there is anything to call) does not get to it. *)
Theorem C102_told_the_truth :
  forall o L calls worst (lie : signal -> mlist -> bool) n s h, (forall l, Permutation (os_sort o l) l) -> well_behaved o L calls ->
  (forall g s, lie g s = true -> early g = false /\ ~ truthful g s) -> in_order_for L s -> may_call o L s h ->
  goes_well (in_order_for L) (occur_k (nested (fun g s => if lie g s then worst g s else calls g s) o n) o s h).
Proof.
  intros o L calls worst lie n s h PE [W1 W2] LI O H. apply C102_to_any_depth; [exact PE| |exact O|exact H]. split.
  - intros g s0 c O0 T0 IN. destruct (lie g s0) eqn:E; [destruct (LI g s0 E) as [_ X]; contradiction|]. exact (W1 g s0 c O0 T0 IN).
  - intros EL g s0 E. destruct (lie g s0) eqn:EE; [destruct (LI g s0 EE) as [X _]; congruence|]. exact (W2 EL g s0 E).
Qed.
Print Assumptions C102_told_the_truth.
(** What comes to an end within some depth comes to the same end when more depth is allowed. *)
Theorem C102_depth_is_no_limit :
  forall o calls n m s h s', occur_k (nested calls o n) o s h = Ok s' -> occur_k (nested calls o (m + n)) o s h = Ok s'.
Proof. intros o calls n m s h s' E. destruct (le_occur _ _ (le_deeper calls o n m) o s h) as [X|X]; congruence. Qed.
Print Assumptions C102_depth_is_no_limit.
(** A first text is opened, whatever was there before: slots that wait until there is something to call may move, apply, save, or open
    another text; so may those of a diff process that ends. *)
Theorem C102_while_opening :
  forall o calls n s t, (forall l, Permutation (os_sort o l) l) -> well_behaved o None calls -> ml_info s <> None -> readable o t ->
  goes_well (in_order_for None) (occur_k (nested calls o n) o s (HParseAndOpen t)) /\
  (ml_process s = true -> forall st err, goes_well (fun s' => in_order_for None s' /\ ml_process s' = false) (occur_k (nested calls o n) o s (HFinished true st t err))).
Proof.
  intros o calls n s t PE WB I R. pose proof (nested_gentle o None calls PE WB n) as G.
  assert (P : patient (nested calls o n)) by (intros g s' E; destruct n; cbn [nested]; rewrite (proj2 WB eq_refl g s' E); reflexivity). split.
  - cbn [occur_k]. apply first_well. pose proof (open_well o _ s t PE P G R I) as W. destruct (parse_and_open_k _ _ _ _) as [[s1 b]| |]; [apply W|exact W|exact Logic.I].
  - intros PR st err. exact (finished_well o _ s st t err PE P G I PR R).
Qed.
Print Assumptions C102_while_opening.

(** * Where it is false *)
Definition on_signal (f : signal -> bool) (h : mlist -> happening) : caller := fun g _ => if f g then [fun s => Some (h s)] else [].
Definition is_ub {A} (r : res A) : bool := match r with UB _ => true | _ => false end.
Lemma is_ub_ub {A} (r : res A) : is_ub r = true -> exists w, r = UB w. Proof. destruct r; try discriminate. eauto. Qed.
Definition when_emptied (g : signal) : bool := match g with ModelsChanged (Some []) => true | _ => false end.
Definition when_a_save_failed (g : signal) : bool := match g with Error SaveProblem => true | _ => false end.
Definition when_read (g : signal) : bool := match g with Status FinishedParsing => true | _ => false end.
Definition when_selected (g : signal) : bool := match g with SetSelection _ _ => true | _ => false end.
Definition all_applied : mlist := match occur world three (HApplyAll true) with Ok s => s | _ => three end.
Definition not_copied : save_env := mk_save_env true true true true true true false.
Definition after_refresh : res mlist := occur_k (nested (on_signal when_read (fun _ => HRefresh)) world 1) world running (HFinished true NormalExit two_files []).
(** Waiting for diff: a slot that is told, the first time, that diff is about to run starts it anew and waits for its end (an event loop). *)
Definition starting (g : signal) : bool := match g with Status RunningDiff => true | _ => false end.
Definition impatient : caller := fun g s =>
  if (starting g && Nat.eqb (length (filter starting (ml_out s))) 1)%bool then [fun _ => Some HRefresh; fun s => Some (HFinished true NormalExit two_files [])] else [].
(** False of the code: a slot that goes to the next file when it is told that the list has changed, although the list is empty then;
    a slot that opens another diff, readable or not, when it is told that one of the files of saveAll() could not be copied; a slot that starts diff again
    when the output of the first one has been read: the new process is thrown away, and the list stays empty; a slot that starts diff and
    waits for it when it is told that diff is about to run: the process that is started after that is not there any more. *)
Theorem C102_calls_refuted :
  (exists w, occur_k (nested (on_signal when_emptied (fun _ => HNextModel)) world 1) world three (HParseAndOpen two_files) = UB w) /\
  (exists w, occur_k (nested (on_signal when_a_save_failed (fun _ => HParseAndOpen two_files)) world 1) world all_applied (HSaveAll (fun _ => not_copied)) = UB w) /\
  (exists w, occur_k (nested (on_signal when_a_save_failed (fun _ => HParseAndOpen (lit "no diff"))) world 1) world all_applied (HSaveAll (fun _ => not_copied)) = UB w) /\
  (exists s', after_refresh = Ok s' /\ ml_process s' = false /\ model_count s' = 0 /\ exists told, ml_out s' = told ++ [Status RunningDiff]) /\
  (exists w, occur_k (nested impatient world 1) world ready HRefresh = UB w).
Proof.
  split; [apply is_ub_ub; vm_compute; reflexivity|]. split; [apply is_ub_ub; vm_compute; reflexivity|]. split; [apply is_ub_ub; vm_compute; reflexivity|]. split; [|apply is_ub_ub; vm_compute; reflexivity].
  assert (X : match after_refresh with Ok s' => (negb (ml_process s') && Z.eqb (model_count s') 0 && match last (ml_out s') UpdateActions with Status RunningDiff => true | _ => false end)%bool | _ => false end = true) by (vm_compute; reflexivity).
  destruct after_refresh as [s'| |]; try discriminate X. exists s'. split; [reflexivity|]. apply andb_prop in X as [X X3]. apply andb_prop in X as [X1 X2]. split; [now destruct (ml_process s')|]. split; [now apply Z.eqb_eq|].
  destruct (ml_out s') as [|g l] eqn:EO; [discriminate X3|]. exists (removelast (g :: l)). rewrite (app_removelast_last UpdateActions) at 1 by discriminate. destruct (last (g :: l) UpdateActions); try discriminate X3. match goal with |- context [Status ?y] => destruct y; try discriminate X3 end. reflexivity.
Qed.
Print Assumptions C102_calls_refuted.
(** Nor do calls come to an end: a slot that selects what it is told has been selected is told of that again, at every depth. *)
Definition echo : caller := on_signal when_selected (fun s => HSelect (ml_sel s) (ml_diff s)).
Lemma nested_echo o n m d s : nested echo o (S n) (SetSelection m d) s = do s1 <- occur_k (nested echo o n) o s (HSelect (ml_sel s) (ml_diff s)); Ok s1.
Proof. reflexivity. Qed.
Theorem C102_echo_never_ends :
  forall o n s v, shows s v -> occur_k (nested echo o n) o s (HSelect (ml_sel s) (ml_diff s)) = OutOfFuel.
Proof.
  intros o n. induction n as [|n IH]; intros s v V.
  all: destruct (shows_facts s v V) as (l & m & x & d & f & y & F); pose proof (fa_at _ _ _ _ _ _ _ _ F) as A; pose proof (facts_range _ _ _ _ _ _ _ _ F) as [R1 R2].
  all: destruct (pair_select_ok s v (v_model v) (v_diff v) l m x d f V (fa_tidy _ _ _ _ _ _ _ _ F) (proj1 A) (fa_model _ _ _ _ _ _ _ _ F)) as (s' & E & (S' & _)); try apply F.
  all: cbn [occur_k]; rewrite (fa_diff _ _ _ _ _ _ _ _ F), (proj1 (proj2 A)); destruct (pair_told _ _ _ _ E) as (s1 & PT).
  all: rewrite PT; unfold finish, raise at 1.
  { reflexivity. }
  rewrite nested_echo.
  assert (SH1 : shows (emit (SetSelection (Some m) (Some (m, d))) s1) (at_pos v (v_model v) (v_diff v))).
  { pose proof (PT silent) as P. pose proof (pair_silent s (Some m) (Some (m, d))) as PS. rewrite P, E in PS. apply finish_near in PS. eapply shows_emit, near_shows; [|exact S']. destruct PS as (N1 & N2 & N3 & N4 & N5 & N6). repeat split; congruence. }
  rewrite (IH _ _ SH1). reflexivity.
Qed.
Print Assumptions C102_echo_never_ends.

(** * Cases that meet the hypotheses *)
(** Whenever a selection is told, the difference is applied; then, if there is one, the next file is shown, and the file is saved. *)
Definition busy : caller := fun g _ =>
  match g with
  | SetSelectionOf _ => [fun s => Some (HApply true); fun s => match ml_rw s with true => Some (HSaveSelected not_copied) | false => None end]
  | Applied true => [fun s => Some HNextModel]
  | Status FinishedParsing => [fun s => Some HNextDifference]
  | _ => []
  end.
Lemma busy_behaves L : well_behaved world L busy.
Proof.
  split; [|intros _ g s E; destruct g; try discriminate E; try reflexivity; match type of E with early (Status ?y) = _ => destruct y; try discriminate E; reflexivity end].
  intros g s c O0 T0 IN s' h O E. left. unfold busy in IN. destruct g as [| | |b|b|l|p|y|t|]; try contradiction.
  - destruct IN as [<-|[<-|[]]]; [injection E as <-; exists (LApply true); split; [reflexivity|contradiction]|]. destruct (ml_rw s'); [|discriminate]. injection E as <-. exists (LSave not_copied). split; [reflexivity|contradiction].
  - destruct b; [|contradiction]. destruct IN as [<-|[]]. injection E as <-. exists LNextFile. split; [reflexivity|contradiction].
  - destruct y; try contradiction. destruct IN as [<-|[]]. injection E as <-. exists LNext. split; [reflexivity|contradiction].
Qed.
(** One that checks what it is told of the position, and starts a diff over when it was told wrong. *)
Definition told_wrong (g : signal) (s : mlist) : bool :=
  match g with
  | SetStatusBar i j n _ _ => negb (match current_model s, current_difference s with Ok i', Ok j' => Z.eqb i i' && Z.eqb j j' && Z.eqb n (model_count s) | _, _ => false end)%bool
  | _ => false
  end.
Lemma told_wrong_lies g s : told_wrong g s = true -> early g = false /\ ~ truthful g s.
Proof.
  destruct g; try discriminate. intros E. split; [reflexivity|]. cbn [truthful told_wrong] in *. intros (A & B & C & _). rewrite A, B, C, !Z.eqb_refl in E. discriminate E.
Qed.
Definition when_moved : res mlist := occur_k (nested busy world 3) world three HNextDifference.
Definition when_opened : res mlist := occur_k (nested busy world 4) world ready (HParseAndOpen two_files).
Example C102_example :
  well_behaved world None busy /\ (exists l, in_order_for (Some l) three /\ well_behaved world (Some l) busy /\ may_call world (Some l) three HNextDifference) /\
  ml_info ready <> None /\ readable world two_files /\
  (exists s', when_moved = Ok s' /\ current_model s' = Ok 1 /\ current_difference s' = Ok 0 /\ has_unsaved_changes s' = Ok true) /\
  (exists s', when_opened = Ok s' /\ current_model s' = Ok 1 /\ has_unsaved_changes s' = Ok true).
Proof.
  split; [apply busy_behaves|]. split; [|split; [discriminate|split; [|split]]].
  - destruct C40_example as (_ & SH & _). pose proof (sh_all _ _ SH) as (l & M & _). destruct three_info as (i & I & _). exists l. split; [split; [exists three_view; exact SH|split; [|exact M]]|].
   { intros Q. pose proof (eq_trans (eq_sym I) Q) as W. discriminate W. }
   split; [apply busy_behaves|]. left. exists LNext. split; [reflexivity|contradiction].
  - assert (X : match parse (os_sort world) (split_lines two_files) with Ok p => match po_models p with Some _ => true | None => false end | _ => false end = true) by (vm_compute; reflexivity).
    unfold readable. destruct (parse (os_sort world) (split_lines two_files)) as [p| |]; try discriminate. destruct (po_models p) as [ms|] eqn:PM; [|discriminate]. exists p, ms. split; [reflexivity|exact PM].
  - assert (X : match when_moved with Ok s' => match current_model s', current_difference s', has_unsaved_changes s' with Ok a, Ok b, Ok c => (a, b, c) | _, _, _ => (9, 9, false) end | _ => (8, 8, false) end = (1, 0, true)) by (vm_compute; reflexivity).
    destruct when_moved as [s'| |]; try discriminate X. exists s'. destruct (current_model s'); try discriminate X. destruct (current_difference s'); try discriminate X. destruct (has_unsaved_changes s'); try discriminate X. injection X as -> -> ->. auto.
  - assert (X : match when_opened with Ok s' => match current_model s', has_unsaved_changes s' with Ok a, Ok c => (a, c) | _, _ => (9, false) end | _ => (8, false) end = (1, true)) by (vm_compute; reflexivity).
    destruct when_opened as [s'| |]; try discriminate X. exists s'. destruct (current_model s'); try discriminate X. destruct (has_unsaved_changes s'); try discriminate X. injection X as -> ->. auto.
Qed.
