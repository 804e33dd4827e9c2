(** Specification of the list between the start and the end of a diff process: compare(), refresh() and swap() have
    emptied the list, but what was selected is still selected and still there. *)
From Coq Require Import String.
From Verif Require Import Base QtStr Diff Save Blend SpecHistory SpecPatch SpecParse Info ModelList SpecList.
Local Open Scope Z_scope.

(** The list is empty; with the models put back into it, it would show the view. *)
Definition put_back (l : list nat) (s : mlist) : mlist := with_models s (ml_heap s) (Some l).
Definition waiting (s : mlist) (v : view) : Prop := ml_models s = Some [] /\ exists l, shows (put_back l s) v.

(** The operations that go to another model. *)
Definition leaves (v : view) (o : lop) : bool :=
  match o with
  | LNextFile | LPreviousFile | LSelect _ _ => true
  | LNext | LActApply => negb (Nat.ltb (S (v_diff v)) (size_of v (v_model v)))
  | LPrevious | LActUnapply => Nat.eqb (v_diff v) 0
  | _ => false
  end.
(** What the others do to the view: what they always do, but saveAll() finds no model to save. *)
Definition wstep (v : view) (o : lop) : option view :=
  if leaves v o then None else match o with LSaveAll _ => Some v | _ => vstep v o end.
Fixpoint wrun (v : view) (l : list lop) : option view :=
  match l with [] => Some v | o :: l' => match wstep v o with Some v' => wrun v' l' | None => None end end.

(** What can be asked meanwhile: the selected model is not found and there are no models, nothing is unsaved;
    what is asked about the selected model is answered as before. *)
Record observed_waiting (s : mlist) (v : view) : Prop := {
  ow_current_model : current_model s = Ok (-1);
  ow_models : model_count s = 0;
  ow_unsaved : has_unsaved_changes s = Ok false;
  ow_current_difference : current_difference s = Ok (Z.of_nat (v_diff v));
  ow_differences : difference_count s = Ok (Z.of_nat (size_of v (v_model v)));
  ow_applied : applied_count s = Ok (count_true (now_of v (v_model v))) }.

(** The actions once they are brought up to date meanwhile: there is no next file, and no next difference after
    the last one of the model; all others as ever, so "previous file" is enabled when there was a previous file. *)
Record actions_waiting (s : mlist) (v : view) : Prop := {
  aw_previous_file : ac_previous_file (ml_act s) = Nat.ltb 0 (v_model v);
  aw_next_file : ac_next_file (ml_act s) = false;
  aw_previous : ac_previous (ml_act s) = (Nat.ltb 0 (v_model v) || Nat.ltb 0 (v_diff v))%bool;
  aw_next : ac_next (ml_act s) = Nat.ltb (S (v_diff v)) (size_of v (v_model v));
  aw_apply : ml_has_save s = true -> ac_apply (ml_act s) = (v_rw v && negb (nth (v_diff v) (now_of v (v_model v)) true))%bool;
  aw_unapply : ml_has_save s = true -> ac_unapply (ml_act s) = (v_rw v && nth (v_diff v) (now_of v (v_model v)) false)%bool;
  aw_apply_all : ml_has_save s = true -> ac_apply_all (ml_act s) = (v_rw v && something false (now_of v (v_model v)))%bool;
  aw_unapply_all : ml_has_save s = true -> ac_unapply_all (ml_act s) = (v_rw v && something true (now_of v (v_model v)))%bool;
  aw_save : ml_has_save s = true -> ac_save (ml_act s) = (v_rw v && unsaved_flags (now_of v (v_model v), saved_of v (v_model v)))%bool }.

(** The status bar meanwhile. *)
Definition bar_waiting (v : view) : signal :=
  SetStatusBar (-1) (Z.of_nat (v_diff v)) 0 (Z.of_nat (size_of v (v_model v))) (count_true (now_of v (v_model v))).
(** Whether an action of the list is enabled; the operations that are not actions can always be called. *)
Definition enabled (s : mlist) (o : lop) : bool :=
  match o with
  | LNext => ac_next (ml_act s)
  | LPrevious => ac_previous (ml_act s)
  | LNextFile => ac_next_file (ml_act s)
  | LPreviousFile => ac_previous_file (ml_act s)
  | LActApply => ac_apply (ml_act s)
  | LActUnapply => ac_unapply (ml_act s)
  | LActApplyAll true => ac_apply_all (ml_act s)
  | LActApplyAll false => ac_unapply_all (ml_act s)
  | LSave _ => ac_save (ml_act s)
  | _ => true
  end.
