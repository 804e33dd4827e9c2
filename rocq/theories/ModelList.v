(** Model of ModelList (modellist.cpp) and ModelListPrivate (modellist_p.h, modellist_p.cpp). *)
From Coq Require Import String.
From Verif Require Import Base QtStr Diff Save Parser Paths Blend Info.
Local Open Scope Z_scope.

(** * State *)
(** A Difference object: the model that owns it and its place in the store of that model. *)
Definition dref := (nat * nat)%type.
(** The enabled flags of the actions (modellist_p.h 85-95). *)
Record actions := mk_actions {
  ac_apply : bool; ac_unapply : bool; ac_apply_all : bool; ac_unapply_all : bool; ac_save : bool;
  ac_previous_file : bool; ac_next_file : bool; ac_previous : bool; ac_next : bool }.
(** Signals, in the order of their emission. Error and status signals carry a tag instead of a text. *)
Inductive problem :=
  NotParsed | Malformed | NoModels | NotApplied | Identical | ProcessError (stderr : str) | SaveProblem.
Inductive state := RunningDiff | Parsing | FinishedParsing.
Inductive signal :=
| SetSelection (m : option nat) (d : option dref)
| SetSelectionOf (d : option dref)
| SetStatusBar (model difference models differences applied : Z)
| Applied (b : bool) | AppliedAll (b : bool)
| ModelsChanged (l : option (list nat))
| Error (p : problem) | Status (s : state) | DiffString (s : str) | UpdateActions.
(** modellist_p.h 68-99. [ml_heap]: every DiffModel object that was ever made, [None] when it has been deleted;
    a pointer to a model is its place there. [ml_models]: null, or the list of models. [ml_has_save]: the
    save and apply actions exist (constructed with supportReadWrite). [ml_process]: a diff process is there. *)
Record mlist := mk_ml {
  ml_heap : list (option dmodel); ml_models : option (list nat);
  ml_sel : option nat; ml_diff : option dref; ml_index : Z;
  ml_rw : bool; ml_has_save : bool; ml_act : actions;
  ml_info : option info; ml_process : bool; ml_out : list signal }.

Definition with_heap (s : mlist) h := mk_ml h (ml_models s) (ml_sel s) (ml_diff s) (ml_index s) (ml_rw s) (ml_has_save s) (ml_act s) (ml_info s) (ml_process s) (ml_out s).
Definition with_models (s : mlist) h l := mk_ml h l (ml_sel s) (ml_diff s) (ml_index s) (ml_rw s) (ml_has_save s) (ml_act s) (ml_info s) (ml_process s) (ml_out s).
Definition with_sel (s : mlist) m := mk_ml (ml_heap s) (ml_models s) m (ml_diff s) (ml_index s) (ml_rw s) (ml_has_save s) (ml_act s) (ml_info s) (ml_process s) (ml_out s).
Definition with_diff (s : mlist) d := mk_ml (ml_heap s) (ml_models s) (ml_sel s) d (ml_index s) (ml_rw s) (ml_has_save s) (ml_act s) (ml_info s) (ml_process s) (ml_out s).
Definition with_index (s : mlist) i := mk_ml (ml_heap s) (ml_models s) (ml_sel s) (ml_diff s) i (ml_rw s) (ml_has_save s) (ml_act s) (ml_info s) (ml_process s) (ml_out s).
Definition with_rw (s : mlist) b := mk_ml (ml_heap s) (ml_models s) (ml_sel s) (ml_diff s) (ml_index s) b (ml_has_save s) (ml_act s) (ml_info s) (ml_process s) (ml_out s).
Definition with_act (s : mlist) a := mk_ml (ml_heap s) (ml_models s) (ml_sel s) (ml_diff s) (ml_index s) (ml_rw s) (ml_has_save s) a (ml_info s) (ml_process s) (ml_out s).
Definition with_info (s : mlist) i := mk_ml (ml_heap s) (ml_models s) (ml_sel s) (ml_diff s) (ml_index s) (ml_rw s) (ml_has_save s) (ml_act s) i (ml_process s) (ml_out s).
Definition with_process (s : mlist) p := mk_ml (ml_heap s) (ml_models s) (ml_sel s) (ml_diff s) (ml_index s) (ml_rw s) (ml_has_save s) (ml_act s) (ml_info s) p (ml_out s).
Definition emit (g : signal) (s : mlist) := mk_ml (ml_heap s) (ml_models s) (ml_sel s) (ml_diff s) (ml_index s) (ml_rw s) (ml_has_save s) (ml_act s) (ml_info s) (ml_process s) (ml_out s ++ [g]).

(** Pointer dereferences. *)
Definition model_of (s : mlist) (m : nat) : res dmodel :=
  match nth_error (ml_heap s) m with
  | Some (Some x) => Ok x
  | _ => UB "dangling DiffModel pointer"
  end.
Definition put_model (s : mlist) (m : nat) (x : dmodel) : mlist := with_heap s (update (ml_heap s) m (Some x)).
Definition selected (s : mlist) : res (nat * dmodel) :=
  match ml_sel s with
  | None => UB "null DiffModel pointer"
  | Some m => do x <- model_of s m; Ok (m, x)
  end.
Definition difference_of (s : mlist) (d : option dref) : res difference :=
  match d with
  | None => UB "null Difference pointer"
  | Some (m, k) => do x <- model_of s m; deref (dm_store x) k
  end.
Definition the_list (s : mlist) : res (list nat) :=
  match ml_models s with Some l => Ok l | None => UB "null DiffModelList pointer" end.
Definition the_info (s : mlist) : res info :=
  match ml_info s with Some i => Ok i | None => UB "null Info pointer" end.
(** QList::indexOf. *)
Definition index_in (m : option nat) (l : list nat) : Z :=
  match m with
  | None => -1
  | Some m => match find_id m l with Some k => Z.of_nat k | None => -1 end
  end.
(** The place of a difference in a model (DiffModel::findDifference), -1 if it is not there. *)
Definition index_of_diff (m : nat) (x : dmodel) (d : option dref) : Z :=
  match d with
  | Some (m', k) => if Nat.eqb m m' then index_in (Some k) (dm_diffs x) else -1
  | None => -1
  end.
(** DiffModel::setSelectedDifference called with any pointer. *)
Definition select_in (s : mlist) (m : nat) (d : option dref) : res (mlist * bool) :=
  do x <- model_of s m;
  match d with
  | None => let '(x, ok) := set_selected_difference x None in Ok (put_model s m x, ok)
  | Some (m', k) =>
      if Nat.eqb m m' then let '(x, ok) := set_selected_difference x (Some k) in Ok (put_model s m x, ok)
      else Ok (s, false)
  end.

(** * Navigation in the list (modellist_p.cpp) *)
(** 163-172 firstModel: QList::first of an empty list is undefined. *)
Definition first_model (s : mlist) : res mlist :=
  let s := with_index s 0 in
  do l <- the_list s;
  match l with [] => UB "first() of an empty list" | m :: _ => Ok (with_sel s (Some m)) end.
(** 174-183 lastModel. *)
Definition last_model (s : mlist) : res mlist :=
  do l <- the_list s;
  let s := with_index s (Z.of_nat (length l) - 1) in
  match rev l with [] => UB "last() of an empty list" | m :: _ => Ok (with_sel s (Some m)) end.
(** operator[] of the list of models. *)
Definition model_at (l : list nat) (i : Z) : res nat :=
  if Z.ltb i 0 then UB "negative index into models"
  else match nth_error l (Z.to_nat i) with Some m => Ok m | None => UB "index into models out of range" end.
(** 185-198 prevModel: the list is only looked at when modelIndex > 0. *)
Definition prev_model (s : mlist) : res mlist :=
  if Z.ltb 0 (ml_index s) then
    let s := with_index s (ml_index s - 1) in
    do l <- the_list s;
    if Z.ltb (ml_index s) (Z.of_nat (length l)) then
      do m <- model_at l (ml_index s); Ok (with_sel s (Some m))
    else Ok (with_index (with_sel s None) 0)
  else Ok (with_index (with_sel s None) 0).
(** 200-213 nextModel. *)
Definition next_model (s : mlist) : res mlist :=
  let s := with_index s (ml_index s + 1) in
  do l <- the_list s;
  if Z.ltb (ml_index s) (Z.of_nat (length l)) then
    do m <- model_at l (ml_index s); Ok (with_sel s (Some m))
  else Ok (with_index (with_sel s None) 0).

(** 69-81 hasPrevModel, 83-94 hasNextModel, 96-114 hasPrevDiff, 116-134 hasNextDiff. *)
Definition has_prev_model (s : mlist) : bool := Z.ltb 0 (ml_index s).
Definition has_next_model (s : mlist) : res bool :=
  do l <- the_list s; Ok (Z.ltb (ml_index s) (Z.of_nat (length l) - 1)).
Definition has_prev_diff (s : mlist) : res bool :=
  do r <- selected s;
  if Z.ltb 0 (dm_index (snd r)) then Ok true else Ok (has_prev_model s).
Definition has_next_diff (s : mlist) : res bool :=
  do r <- selected s;
  if Z.ltb (dm_index (snd r)) (Z.of_nat (length (dm_diffs (snd r))) - 1) then Ok true else has_next_model s.
(** 233-276 updateModelListActions. *)
Definition disable_saving (a : actions) : actions :=
  mk_actions false false false false false (ac_previous_file a) (ac_next_file a) (ac_previous a) (ac_next a).
Definition update_actions (s : mlist) : res mlist :=
  match ml_models s, ml_sel s, ml_diff s with
  | Some _, Some _, Some _ =>
      do a <- (if ml_has_save s then
                 if ml_rw s then
                   do r <- selected s;
                   let x := snd r in
                   do d <- difference_of s (ml_diff s);
                   do u <- has_unsaved x;
                   Ok (mk_actions (negb (d_applied d)) (d_applied d)
                         (negb (Z.eqb (dm_applied x) (Z.of_nat (length (dm_diffs x))))) (negb (Z.eqb (dm_applied x) 0)) u
                         (ac_previous_file (ml_act s)) (ac_next_file (ml_act s)) (ac_previous (ml_act s)) (ac_next (ml_act s)))
                 else Ok (disable_saving (ml_act s))
               else Ok (ml_act s));
      do nm <- has_next_model s;
      do pd <- has_prev_diff s;
      do nd <- has_next_diff s;
      Ok (with_act s (mk_actions (ac_apply a) (ac_unapply a) (ac_apply_all a) (ac_unapply_all a) (ac_save a)
                        (has_prev_model s) nm pd nd))
  | _, _, _ =>
      let a := if ml_has_save s then disable_saving (ml_act s) else ml_act s in
      Ok (with_act s (mk_actions (ac_apply a) (ac_unapply a) (ac_apply_all a) (ac_unapply_all a) (ac_save a) false false false false))
  end.
(** 215-231 setSelectedModel. *)
Definition set_selected_model (s : mlist) (m : option nat) : res (mlist * bool) :=
  if sel_eqb m (ml_sel s) then do s <- update_actions s; Ok (s, true)
  else
    do l <- the_list s;
    if Z.ltb (index_in m l) 0 then Ok (s, false)
    else
      let s := with_sel (with_index s (index_in m l)) m in
      do s <- update_actions s; Ok (s, true).

(** selectedDifference = selectedModel->firstDifference(), and lastDifference(). *)
Definition to_first_difference (s : mlist) : res mlist :=
  do r <- selected s;
  let '(m, x) := r in
  do r <- first_difference x;
  let '(x, k) := r in
  Ok (with_diff (put_model s m x) (Some (m, k))).
Definition to_last_difference (s : mlist) : res mlist :=
  do r <- selected s;
  let '(m, x) := r in
  do r <- last_difference x;
  let '(x, k) := r in
  Ok (with_diff (put_model s m x) (Some (m, k))).

(** * Queries (modellist.cpp 889-1006) *)
(** 903-908 findModel, 910-915 currentModel, 917-922 currentDifference, 980-999 the counts, 967-978
    hasUnsavedChanges. *)
Definition find_model (s : mlist) (m : option nat) : res Z := do l <- the_list s; Ok (index_in m l).
Definition current_model (s : mlist) : res Z := find_model s (ml_sel s).
Definition current_difference (s : mlist) : res Z :=
  match ml_sel s with
  | None => Ok (-1)
  | Some m => do x <- model_of s m; Ok (index_of_diff m x (ml_diff s))
  end.
Definition model_count (s : mlist) : Z := match ml_models s with Some l => Z.of_nat (length l) | None => 0 end.
Definition difference_count (s : mlist) : res Z :=
  match ml_sel s with None => Ok (-1) | Some m => do x <- model_of s m; Ok (Z.of_nat (length (dm_diffs x))) end.
Definition applied_count (s : mlist) : res Z :=
  match ml_sel s with None => Ok (-1) | Some m => do x <- model_of s m; Ok (dm_applied x) end.
Fixpoint any_unsaved (s : mlist) (l : list nat) : res bool :=
  match l with
  | [] => Ok false
  | m :: l' => do x <- model_of s m; do u <- has_unsaved x; if u : bool then Ok true else any_unsaved s l'
  end.
Definition has_unsaved_changes (s : mlist) : res bool :=
  match ml_models s with None => Ok false | Some l => any_unsaved s l end.

(** setStatusBarModelInfo(findModel(selectedModel), selectedModel->findDifference(selectedDifference), modelCount(),
    differenceCount(), selectedModel->appliedCount()), as in every slot below. *)
Definition status_bar (s : mlist) : res mlist :=
  do i <- find_model s (ml_sel s);
  do r <- selected s;
  let '(m, x) := r in
  do n <- difference_count s;
  Ok (emit (SetStatusBar i (index_of_diff m x (ml_diff s)) (model_count s) n (dm_applied x)) s).
(** setSelection(selectedModel, selectedDifference), status bar, updateModelListActions. *)
Definition announce (s : mlist) : res mlist :=
  do s <- status_bar (emit (SetSelection (ml_sel s) (ml_diff s)) s); update_actions s.
Definition announce_difference (s : mlist) : res mlist :=
  do s <- status_bar (emit (SetSelectionOf (ml_diff s)) s); update_actions s.

(** * Slots (modellist.cpp) *)
(** 566-602 slotSelectionChanged(model, diff): the selection is assigned before it is checked. *)
Definition slot_selection_changed (s : mlist) (m : option nat) (d : option dref) : res mlist :=
  let s := with_sel s m in
  do l <- the_list s;
  let s := with_diff (with_index s (index_in m l)) d in
  match m with
  | None => UB "null DiffModel pointer"
  | Some m' =>
      do r <- select_in s m' d;
      do r <- set_selected_model (fst r) (ml_sel (fst r));
      let '(s, ok) := r in
      do s <- (if ok then
                 match ml_sel s with
                 | None => UB "null DiffModel pointer"
                 | Some m' =>
                     do r <- select_in s m' (ml_diff s);
                     let '(s, ok) := r in
                     if ok then Ok s else to_first_difference s
                 end
               else do s <- first_model s; to_first_difference s);
      do s <- status_bar (emit (SetSelection m d) s);
      update_actions s
  end.
(** 604-628 slotSelectionChanged(diff). *)
Definition slot_difference_changed (s : mlist) (d : option dref) : res mlist :=
  let s := with_diff s d in
  match ml_sel s with
  | None => UB "null DiffModel pointer"
  | Some m =>
      do r <- select_in s m d;
      let '(s, ok) := r in
      do s <- (if ok then Ok s else to_first_difference s);
      do s <- status_bar (emit (SetSelectionOf d) s);
      update_actions s
  end.
(** 630-648 slotPreviousModel, 650-668 slotNextModel. *)
Definition slot_previous_model (s : mlist) : res mlist :=
  do s <- prev_model s;
  do s <- (match ml_sel s with Some _ => Ok s | None => first_model s end);
  do s <- to_first_difference s;
  announce s.
Definition slot_next_model (s : mlist) : res mlist :=
  do s <- next_model s;
  do s <- (match ml_sel s with Some _ => Ok s | None => last_model s end);
  do s <- to_first_difference s;
  announce s.
(** 691-735 slotPreviousDifference, 737-781 slotNextDifference. *)
Definition slot_previous_difference (s : mlist) : res mlist :=
  do r <- selected s;
  let '(m, x) := r in
  do r <- prev_difference x;
  let '(x, k) := r in
  let s := put_model s m x in
  match k with
  | Some k => announce_difference (with_diff s (Some (m, k)))
  | None =>
      do s <- prev_model (with_diff s None);
      match ml_sel s with
      | Some _ => do s <- to_last_difference s; announce s
      | None => do s <- first_model s; do s <- to_first_difference s; announce s
      end
  end.
Definition slot_next_difference (s : mlist) : res mlist :=
  do r <- selected s;
  let '(m, x) := r in
  do r <- next_difference x;
  let '(x, k) := r in
  let s := put_model s m x in
  match k with
  | Some k => announce_difference (with_diff s (Some (m, k)))
  | None =>
      do s <- next_model (with_diff s None);
      match ml_sel s with
      | Some _ => do s <- to_first_difference s; announce s
      | None => do s <- last_model s; do s <- to_last_difference s; announce s
      end
  end.
(** 783-789 slotApplyDifference, 791-797 slotApplyAllDifferences. *)
Definition slot_apply_difference (s : mlist) (b : bool) : res mlist :=
  do r <- selected s;
  let '(m, x) := r in
  do x <- apply_difference x b;
  Ok (emit (Applied b) (put_model s m x)).
Definition slot_apply_all (s : mlist) (b : bool) : res mlist :=
  do r <- selected s;
  let '(m, x) := r in
  do x <- apply_all x b;
  Ok (emit (AppliedAll b) (put_model s m x)).
(** 1008-1016 slotActionApplyDifference, 1018-1026 slotActionUnApplyDifference, 1028-1034 and 1036-1042 the
    actions for all. *)
Definition slot_action_apply (s : mlist) : res mlist :=
  do d <- difference_of s (ml_diff s);
  do s <- (if d_applied d then Ok s else slot_apply_difference s true);
  do s <- slot_next_difference s;
  update_actions s.
Definition slot_action_unapply (s : mlist) : res mlist :=
  do d <- difference_of s (ml_diff s);
  do s <- (if d_applied d then slot_apply_difference s false else Ok s);
  do s <- slot_previous_difference s;
  update_actions s.
Definition slot_action_apply_all (s : mlist) (b : bool) : res mlist :=
  do s <- slot_apply_all s b; update_actions s.
(** 243-370 saveDestination of a model of the list (Save.v) and 230-241 slotSaveDestination. *)
Definition save_model (e : save_env) (s : mlist) (m : nat) : res (mlist * bool) :=
  do x <- model_of s m;
  do o <- save_destination e x;
  let s := put_model s m (so_model o) in
  Ok (if so_error o then emit (Error SaveProblem) s else s, so_ret o).
Definition slot_save (e : save_env) (s : mlist) : res mlist :=
  match ml_sel s with
  | None => Ok s
  | Some m =>
      do r <- save_model e s m;
      let '(s, _) := r in
      let a := ml_act s in
      let s := if ml_has_save s
               then with_act s (mk_actions (ac_apply a) (ac_unapply a) (ac_apply_all a) (ac_unapply_all a) false
                                  (ac_previous_file a) (ac_next_file a) (ac_previous a) (ac_next a))
               else s in
      Ok (emit UpdateActions s)
  end.
(** 404-413 setReadWrite. *)
Definition set_read_write (s : mlist) (b : bool) : res mlist :=
  if Bool.eqb (ml_rw s) b then Ok s else update_actions (with_rw s b).

(** * Opening (modellist.cpp) *)
(** What is outside: QString::localeAwareCompare and std::sort (as a sort function), readFile, QFileInfo::isDir,
    isFile, exists, the MIME type is text/x-patch, QDir::filePath. *)
Record outside := mk_outside {
  os_sort : list dmodel -> list dmodel; os_read : str -> str;
  os_is_dir : str -> bool; os_is_file : str -> bool; os_exists : str -> bool;
  os_is_diff : str -> bool; os_path : str -> str -> str }.
(** Deleting the list deletes the models in it (diffmodellist.h 35-38). *)
Fixpoint delete_all (l : list nat) (h : list (option dmodel)) : list (option dmodel) :=
  match l with [] => h | m :: l' => delete_all l' (update h m None) end.
(** 938-946 clear: the models are not deleted. *)
Definition clear (s : mlist) : mlist :=
  let s := match ml_models s with Some _ => with_models s (ml_heap s) (Some []) | None => s end in
  emit (ModelsChanged (ml_models s)) s.
(** 799-834 parseDiffOutput; [true]: there are models. *)
Definition parse_diff_output (o : outside) (s : mlist) (diff : str) : res (mlist * bool) :=
  let s := emit (DiffString diff) s in
  do p <- parse (os_sort o) (split_lines diff);
  let h := match ml_models s with Some l => delete_all l (ml_heap s) | None => ml_heap s end in
  let s := match po_models p with
           | Some ms => with_models s (h ++ map Some ms) (Some (seq (length h) (length ms)))
           | None => with_models s h None
           end in
  do i <- the_info s;
  let s := with_info s (Some (with_parsed i (po_generator p) (po_format p))) in
  match ml_models s with
  | None => Ok (s, false)
  | Some _ =>
      let s := if po_malformed p then emit (Error Malformed) s else s in
      do s <- first_model s;
      do s <- to_first_difference s;
      do n <- difference_count s;
      Ok (emit (SetStatusBar 0 0 (model_count s) n 0) s, true)
  end.
(** modellist_p.cpp 278-500 blendFile: Blend.v, then 495-497 the selection. *)
Definition blend_model (s : mlist) (m : nat) (text : str) : res mlist :=
  do x <- model_of s m;
  do x <- blend_file x text;
  do s <- first_model (put_model s m x);
  to_first_difference s.
(** 836-878 blendOriginalIntoModelList. *)
Fixpoint blend_dir (o : outside) (url : str) (s : mlist) (l : list nat) (result : bool) : res (mlist * bool) :=
  match l with
  | [] => Ok (s, result)
  | m :: l' =>
      do x <- model_of s m;
      let name := dm_source x in
      let name := if starts_with url name then name else os_path o url name in
      do s <- blend_model s m (if os_exists o name then os_read o name else []);
      blend_dir o url s l' true
  end.
Definition blend_original (o : outside) (s : mlist) (url : str) : res (mlist * bool) :=
  if os_is_dir o url then do l <- the_list s; blend_dir o url s l false
  else if os_is_file o url then
    do l <- the_list s;
    do m <- model_at l 0;
    do s <- blend_model s m (os_read o url);
    Ok (s, true)
  else Ok (s, false).
(** 880-887 show. *)
Definition show (s : mlist) : res mlist :=
  do l <- the_list s;
  Ok (emit (SetSelection (ml_sel s) (ml_diff s)) (emit (ModelsChanged (Some l)) s)).
(** modellist_p.cpp 152-161 setDepthAndApplied. *)
Fixpoint depth_and_applied (i : info) (s : mlist) (l : list nat) : res mlist :=
  match l with
  | [] => Ok s
  | m :: l' =>
      do x <- model_of s m;
      do x <- set_depth_and_applied (in_depth i) (in_applied i) x;
      depth_and_applied i (put_model s m x) l'
  end.
(** 449-475 openDiff, 477-495 parseAndOpenDiff. *)
Definition parse_and_open (o : outside) (s : mlist) (diff : str) : res (mlist * bool) :=
  let s := emit (Status Parsing) (clear s) in
  do r <- parse_diff_output o s diff;
  let '(s, ok) := r in
  if ok then
    do s <- update_actions s;
    do s <- show s;
    Ok (emit (Status FinishedParsing) s, true)
  else Ok (emit (Error NotParsed) s, false).
Definition open_diff (o : outside) (s : mlist) (file : str) : res (mlist * bool) :=
  match file with [] => Ok (s, false) | _ => parse_and_open o s (os_read o file) end.
(** 176-200 openFileAndDiff and 202-228 openDirAndDiff: the same but for the texts of the errors. *)
Definition open_and_blend (o : outside) (s : mlist) : res (mlist * bool) :=
  let s := clear s in
  do i <- the_info s;
  do r <- parse_diff_output o s (os_read o (in_local_destination i));
  let '(s, ok) := r in
  if negb ok then Ok (emit (Error NoModels) s, false)
  else
    do i <- the_info s;
    do l <- the_list s;
    do s <- depth_and_applied i s l;
    do r <- blend_original o s (in_local_source i);
    let '(s, ok) := r in
    if negb ok then Ok (emit (Error NotApplied) s, false)
    else
      do s <- update_actions s;
      do s <- show s;
      Ok (s, true).
(** 159-174 compare(mode): the command line is in Process.v. *)
Definition compare_mode (s : mlist) : mlist := emit (Status RunningDiff) (with_process (clear s) true).
(** 100-157 compare. *)
Definition compare (o : outside) (s : mlist) : res (mlist * bool) :=
  do i <- the_info s;
  let sd := os_is_dir o (in_local_source i) in
  let dd := os_is_dir o (in_local_destination i) in
  if (sd && dd)%bool then Ok (compare_mode (with_info s (Some (with_mode i ComparingDirs))), true)
  else if (negb sd && negb dd)%bool then
    let sp := os_is_diff o (in_local_source i) in
    let dp := os_is_diff o (in_local_destination i) in
    if (negb sp && dp)%bool then open_and_blend o (with_info s (Some (with_mode i BlendingFile)))
    else if (sp && negb dp)%bool then
      open_and_blend o (with_info s (Some (swap_source_with_destination (with_mode i BlendingFile))))
    else Ok (compare_mode (with_info s (Some (with_mode i ComparingFiles))), true)
  else if (sd && negb dd)%bool then open_and_blend o (with_info s (Some (with_mode i BlendingDir)))
  else open_and_blend o (with_info s (Some (swap_source_with_destination (with_mode i BlendingDir)))).
(** kompareprocess.cpp 249-262 slotFinished. *)
Inductive exit_status := NormalExit | CrashExit.
Definition process_success (code : Z) (st : exit_status) : bool :=
  match st with NormalExit => negb (Z.eqb code 0) | CrashExit => false end.
(** 422-447 slotDiffProcessFinished. *)
Definition mode_eqb (a b : mode) : bool :=
  match a, b with
  | ComparingFiles, ComparingFiles | ComparingFileString, ComparingFileString | ComparingStringFile, ComparingStringFile
  | ComparingDirs, ComparingDirs | ShowingDiff, ShowingDiff | BlendingDir, BlendingDir | BlendingFile, BlendingFile
  | UnknownMode, UnknownMode => true
  | _, _ => false
  end.
Definition slot_diff_process_finished (o : outside) (s : mlist) (success : bool) (st : exit_status) (out err : str) : res mlist :=
  if negb (ml_process s) then UB "null KompareProcess pointer"
  else
    do s <- (if success then
               let s := emit (Status Parsing) s in
               do r <- parse_diff_output o s out;
               let '(s, ok) := r in
               do s <- (if negb ok then Ok (emit (Error NotParsed) s)
                        else
                          do i <- the_info s;
                          do s <- (if mode_eqb (in_mode i) ShowingDiff then Ok s
                                   else do r <- blend_original o s (in_local_source i); Ok (fst r));
                          do s <- update_actions s;
                          show s);
               Ok (emit (Status FinishedParsing) s)
             else match st with
                  | NormalExit => Ok (emit (Error Identical) s)
                  | CrashExit => Ok (emit (Error (ProcessError err)) s)
                  end);
    Ok (with_process s false).
(** 948-954 refresh, 956-965 swap: both run diff again; swap only when comparing files or directories. *)
Definition refresh (s : mlist) : res mlist := do _ <- the_info s; Ok (compare_mode s).
Definition swap (s : mlist) : res mlist :=
  do i <- the_info s;
  match in_mode i with
  | ComparingFiles | ComparingDirs => Ok (compare_mode s)
  | _ => Ok s
  end.
(** 38-96 the constructor; 1001-1006 slotKompareInfo. All actions are disabled at the end. *)
Definition new_mlist (support_rw : bool) : mlist :=
  mk_ml [] None None None 0 support_rw support_rw (mk_actions false false false false false false false false false) None false [].
Definition slot_kompare_info (s : mlist) (i : info) : mlist := with_info s (Some i).
(** 372-385 saveAll; one environment per position in the list. *)
Fixpoint save_models (envs : nat -> save_env) (k : nat) (s : mlist) (l : list nat) : res (mlist * bool) :=
  match l with
  | [] => Ok (s, true)
  | m :: l' =>
      do r <- save_model (envs k) s m;
      let '(s, ok) := r in
      if ok : bool then save_models envs (S k) s l' else Ok (s, false)
  end.
Definition save_all_models (envs : nat -> save_env) (s : mlist) : res (mlist * bool) :=
  if Z.eqb (model_count s) 0 then Ok (s, false) else do l <- the_list s; save_models envs 0 s l.
