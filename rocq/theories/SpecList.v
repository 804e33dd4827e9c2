(** Specification of the list of models: what a user sees of it, and what each slot does to that. *)
From Coq Require Import String.
From Verif Require Import Base QtStr Diff Save Blend SpecHistory SpecPatch SpecParse Info ModelList.
Local Open Scope Z_scope.

(** * The view *)
(** For each model, which of its differences are applied now and which were at the last save; the selected
    model and the selected difference in it; read-write or not. *)
Record view := mk_view { v_flags : list (list bool * list bool); v_model : nat; v_diff : nat; v_rw : bool }.
Definition now_of (v : view) (i : nat) : list bool := match nth_error (v_flags v) i with Some f => fst f | None => [] end.
Definition saved_of (v : view) (i : nat) : list bool := match nth_error (v_flags v) i with Some f => snd f | None => [] end.
Definition size_of (v : view) (i : nat) : nat := length (now_of v i).
(** The number of the k-th difference of the i-th model among all differences; how many there are. *)
Definition sizes (v : view) : list nat := map (fun f => length (fst f)) (v_flags v).
Fixpoint sum (l : list nat) : nat := match l with [] => 0 | x :: l' => x + sum l' end.
Definition overall (v : view) : nat := (sum (firstn (v_model v) (sizes v)) + v_diff v)%nat.
Definition total_of (v : view) : nat := sum (sizes v).

(** * A model of the list *)
(** Well linked hunks and differences, at least one difference; the differences that are applied, and those
    that are unsaved because they are not as they were saved; the count of applied ones; a selected
    difference is the one at the remembered index. *)
Record model_state (x : dmodel) (now saved : list bool) : Prop := {
  ms_links : exists hs, links x hs;
  ms_some : dm_diffs x <> [];
  ms_flags : exists ds, listed x = Ok ds /\ map d_applied ds = now /\ map d_unsaved ds = map (fun p => xorb (fst p) (snd p)) (combine now saved);
  ms_saved : length saved = length now;
  ms_count : dm_applied x = count_true now;
  ms_sel : forall d, dm_sel x = Some d -> 0 <= dm_index x /\ nth_error (dm_diffs x) (Z.to_nat (dm_index x)) = Some d }.

(** * The list shows the view *)
Record shows (s : mlist) (v : view) : Prop := {
  sh_rw : ml_rw s = v_rw v;
  sh_index : ml_index s = Z.of_nat (v_model v);
  sh_all : exists l, ml_models s = Some l /\ NoDup l /\
    Forall2 (fun m f => exists x, model_of s m = Ok x /\ model_state x (fst f) (snd f)) l (v_flags v) /\
    exists m x d, nth_error l (v_model v) = Some m /\ ml_sel s = Some m /\ model_of s m = Ok x /\
      dm_index x = Z.of_nat (v_diff v) /\ dm_sel x = Some d /\ nth_error (dm_diffs x) (v_diff v) = Some d /\ ml_diff s = Some (m, d) }.

(** * What can be done *)
Inductive lop :=
| LNext | LPrevious | LNextFile | LPreviousFile
| LSelect (i k : nat)              (* slotSelectionChanged(modelAt(i), modelAt(i)->differenceAt(k)) *)
| LSelectDifference (k : nat)      (* slotSelectionChanged(selectedModel()->differenceAt(k)) *)
| LApply (b : bool) | LApplyAll (b : bool)                   (* the slots *)
| LActApply | LActUnapply | LActApplyAll (b : bool)          (* the actions *)
| LSave (e : save_env) | LSaveAll (envs : nat -> save_env)
| LReadWrite (b : bool).
Definition run_lop (s : mlist) (o : lop) : res mlist :=
  match o with
  | LNext => slot_next_difference s
  | LPrevious => slot_previous_difference s
  | LNextFile => slot_next_model s
  | LPreviousFile => slot_previous_model s
  | LSelect i k =>
      do l <- the_list s; do m <- model_at l (Z.of_nat i); do x <- model_of s m; do d <- diff_at x (Z.of_nat k);
      slot_selection_changed s (Some m) (Some (m, d))
  | LSelectDifference k =>
      do r <- selected s; do d <- diff_at (snd r) (Z.of_nat k); slot_difference_changed s (Some (fst r, d))
  | LApply b => slot_apply_difference s b
  | LApplyAll b => slot_apply_all s b
  | LActApply => slot_action_apply s
  | LActUnapply => slot_action_unapply s
  | LActApplyAll b => slot_action_apply_all s b
  | LSave e => slot_save e s
  | LSaveAll envs => do r <- save_all_models envs s; Ok (fst r)
  | LReadWrite b => set_read_write s b
  end.
Fixpoint run_lops (s : mlist) (l : list lop) : res mlist :=
  match l with [] => Ok s | o :: l' => do s <- run_lop s o; run_lops s l' end.

(** * What it does to the view *)
Definition at_pos (v : view) (i k : nat) : view := mk_view (v_flags v) i k (v_rw v).
Definition with_flags (v : view) (f : list (list bool * list bool)) : view := mk_view f (v_model v) (v_diff v) (v_rw v).
(** The next and the previous difference overall; the last and the first one stay. *)
Definition next_pos (v : view) : view :=
  if Nat.ltb (S (v_diff v)) (size_of v (v_model v)) then at_pos v (v_model v) (S (v_diff v))
  else if Nat.ltb (S (v_model v)) (length (v_flags v)) then at_pos v (S (v_model v)) 0
  else v.
Definition previous_pos (v : view) : view :=
  match v_diff v with
  | S k => at_pos v (v_model v) k
  | O => match v_model v with
         | S i => at_pos v i (size_of v i - 1)
         | O => v
         end
  end.
Definition set_now (v : view) (now : list bool) : view :=
  with_flags v (update (v_flags v) (v_model v) (now, saved_of v (v_model v))).
Definition apply_here (b : bool) (v : view) : view := set_now v (update (now_of v (v_model v)) (v_diff v) b).
Definition apply_everywhere (b : bool) (v : view) : view := set_now v (map (fun _ => b) (now_of v (v_model v))).
(** Only a save that succeeds makes the present state the saved one. *)
Definition after_save (e : save_env) (f : list bool * list bool) : list bool * list bool :=
  (fst f, if save_succeeds e then fst f else snd f).
(** The save of a model with unsaved changes makes saveAll() go on unless one of these fails. *)
Definition save_goes_on (e : save_env) : bool :=
  (se_open e && se_write e && se_close e && (negb (se_dirs e) || se_stat e || se_mkdir e))%bool.
Definition unsaved_flags (f : list bool * list bool) : bool := existsb (fun p => xorb (fst p) (snd p)) (combine (fst f) (snd f)).
Fixpoint after_save_all (envs : nat -> save_env) (k : nat) (fs : list (list bool * list bool)) : list (list bool * list bool) :=
  match fs with
  | [] => []
  | f :: fs' =>
      after_save (envs k) f ::
      if (negb (unsaved_flags f) || save_goes_on (envs k))%bool then after_save_all envs (S k) fs' else fs'
  end.
(** [None]: the operation names a model or a difference that does not exist. *)
Definition vstep (v : view) (o : lop) : option view :=
  match o with
  | LNext => Some (next_pos v)
  | LPrevious => Some (previous_pos v)
  | LNextFile => Some (at_pos v (if Nat.ltb (S (v_model v)) (length (v_flags v)) then S (v_model v) else v_model v) 0)
  | LPreviousFile => Some (at_pos v (v_model v - 1) 0)
  | LSelect i k => if Nat.ltb k (size_of v i) then Some (at_pos v i k) else None
  | LSelectDifference k => if Nat.ltb k (size_of v (v_model v)) then Some (at_pos v (v_model v) k) else None
  | LApply b => Some (apply_here b v)
  | LApplyAll b | LActApplyAll b => Some (apply_everywhere b v)
  | LActApply => Some (next_pos (apply_here true v))
  | LActUnapply => Some (previous_pos (apply_here false v))
  | LSave e => Some (with_flags v (update (v_flags v) (v_model v) (after_save e (now_of v (v_model v), saved_of v (v_model v)))))
  | LSaveAll envs => Some (with_flags v (after_save_all envs 0 (v_flags v)))
  | LReadWrite b => Some (mk_view (v_flags v) (v_model v) (v_diff v) b)
  end.
Fixpoint vrun (v : view) (l : list lop) : option view :=
  match l with [] => Some v | o :: l' => match vstep v o with Some v' => vrun v' l' | None => None end end.

(** * What can be asked *)
Record observed (s : mlist) (v : view) : Prop := {
  ob_current_model : current_model s = Ok (Z.of_nat (v_model v));
  ob_current_difference : current_difference s = Ok (Z.of_nat (v_diff v));
  ob_models : model_count s = Z.of_nat (length (v_flags v));
  ob_differences : difference_count s = Ok (Z.of_nat (size_of v (v_model v)));
  ob_applied : applied_count s = Ok (count_true (now_of v (v_model v)));
  ob_unsaved : has_unsaved_changes s = Ok (existsb unsaved_flags (v_flags v));
  ob_in_range : (v_model v < length (v_flags v))%nat /\ (v_diff v < size_of v (v_model v))%nat;
  ob_selected : exists m x d y, ml_sel s = Some m /\ model_of s m = Ok x /\ ml_diff s = Some (m, d) /\ dm_sel x = Some d /\
    deref (dm_store x) d = Ok y /\ nth_error (now_of v (v_model v)) (v_diff v) = Some (d_applied y) }.

(** * Actions *)
Definition something (b : bool) (l : list bool) : bool := existsb (Bool.eqb b) l.
Record actions_right (s : mlist) (v : view) : Prop := {
  ar_previous_file : ac_previous_file (ml_act s) = Nat.ltb 0 (v_model v);
  ar_next_file : ac_next_file (ml_act s) = Nat.ltb (S (v_model v)) (length (v_flags v));
  ar_previous : ac_previous (ml_act s) = Nat.ltb 0 (overall v);
  ar_next : ac_next (ml_act s) = Nat.ltb (S (overall v)) (total_of v);
  ar_apply : ml_has_save s = true -> ac_apply (ml_act s) = (v_rw v && negb (nth (v_diff v) (now_of v (v_model v)) true))%bool;
  ar_unapply : ml_has_save s = true -> ac_unapply (ml_act s) = (v_rw v && nth (v_diff v) (now_of v (v_model v)) false)%bool;
  ar_apply_all : ml_has_save s = true -> ac_apply_all (ml_act s) = (v_rw v && something false (now_of v (v_model v)))%bool;
  ar_unapply_all : ml_has_save s = true -> ac_unapply_all (ml_act s) = (v_rw v && something true (now_of v (v_model v)))%bool;
  ar_save : ml_has_save s = true -> ac_save (ml_act s) = (v_rw v && unsaved_flags (now_of v (v_model v), saved_of v (v_model v)))%bool }.
(** The operations that bring the actions up to date. *)
Definition refreshes (o : lop) : bool :=
  match o with
  | LNext | LPrevious | LNextFile | LPreviousFile | LSelect _ _ | LSelectDifference _ | LActApply | LActUnapply | LActApplyAll _ => true
  | LApply _ | LApplyAll _ | LSave _ | LSaveAll _ | LReadWrite _ => false
  end.

(** * Opening *)
(** The view right after opening: every difference applied or not, nothing saved as applied, the first
    difference of the first model selected. *)
Definition opened (ms : list dmodel) (b rw : bool) : view :=
  mk_view (map (fun x => (repeat b (length (dm_diffs x)), repeat false (length (dm_diffs x)))) ms) 0 0 rw.
(** The same model but for the selected difference. *)
Definition sel_only (x y : dmodel) : Prop := y = with_selection x (dm_index y) (dm_sel y).
(** What the list holds, in order. *)
Definition holds (s : mlist) (P : nat -> dmodel -> Prop) (n : nat) : Prop :=
  exists l, ml_models s = Some l /\ length l = n /\ forall k m, nth_error l k = Some m -> exists x, model_of s m = Ok x /\ P k x.
(** The text a model is blended with when a directory is given (modellist.cpp 848-866). *)
Definition dir_text (o : outside) (url : str) (x : dmodel) : str :=
  let name := if starts_with url (dm_source x) then dm_source x else os_path o url (dm_source x) in
  if os_exists o name then os_read o name else [].
(** Blended with the text, but for the selection. *)
Definition blended_with (text : str) (x y : dmodel) : Prop :=
  exists x0 y0, sel_only x x0 /\ blend_file x0 text = Ok y0 /\ sel_only y0 y.
(** What becomes of the k-th model when the original is blended in: all of them from a directory, the first
    one from a file. *)
Definition original (o : outside) (url : str) (k : nat) (x y : dmodel) : Prop :=
  if os_is_dir o url then blended_with (dir_text o url x) x y
  else if os_is_file o url then match k with O => blended_with (os_read o url) x y | S _ => sel_only x y end
  else sel_only x y.

(** * Signals *)
(** The status bar for a view; the operations that announce the selection; the announcement: a selection
    signal with what is selected now (the difference alone only within the same model), then the status bar. *)
Definition bar_of (v : view) : signal :=
  SetStatusBar (Z.of_nat (v_model v)) (Z.of_nat (v_diff v)) (Z.of_nat (length (v_flags v))) (Z.of_nat (size_of v (v_model v))) (count_true (now_of v (v_model v))).
Definition moves (o : lop) : bool :=
  match o with LNext | LPrevious | LNextFile | LPreviousFile | LSelect _ _ | LSelectDifference _ | LActApply | LActUnapply => true | _ => false end.
Definition told (s s' : mlist) (v v' : view) : Prop :=
  exists pre g, ml_out s' = ml_out s ++ pre ++ [g; bar_of v'] /\
    (g = SetSelection (ml_sel s') (ml_diff s') \/ g = SetSelectionOf (ml_diff s') /\ v_model v' = v_model v).

(** * Comparing *)
Inductive kind := ADirectory | ADiff | APlainFile.
Definition kind_of (o : outside) (path : str) : kind :=
  if os_is_dir o path then ADirectory else if os_is_diff o path then ADiff else APlainFile.
Inductive job := RunDiff | BlendIn.
(** Mode, whether the two sides change places, and what is done. *)
Definition dispatch (a b : kind) : mode * bool * job :=
  match a, b with
  | ADirectory, ADirectory => (ComparingDirs, false, RunDiff)
  | ADirectory, _ => (BlendingDir, false, BlendIn)
  | _, ADirectory => (BlendingDir, true, BlendIn)
  | APlainFile, ADiff => (BlendingFile, false, BlendIn)
  | ADiff, APlainFile => (BlendingFile, true, BlendIn)
  | ADiff, ADiff | APlainFile, APlainFile => (ComparingFiles, false, RunDiff)
  end.
