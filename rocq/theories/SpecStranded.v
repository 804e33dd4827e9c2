(** Specification of the list after an opening that failed while something was shown: there is no list of models any
    more, but what was selected is still selected and still there, and the actions are as before. *)
From Coq Require Import String.
From Verif Require Import Base QtStr Diff Save Blend SpecHistory SpecPatch SpecParse Info ModelList SpecList SpecWaiting.
Local Open Scope Z_scope.

(** There is no list; with the models put back into one, it would show the view. *)
Definition stranded (s : mlist) (v : view) : Prop := ml_models s = None /\ exists l, shows (put_back l s) v.

(** The operations that select something: they all ask for the place of the selected model in the list. *)
Definition needs_list (o : lop) : bool :=
  match o with
  | LNext | LPrevious | LNextFile | LPreviousFile | LSelect _ _ | LSelectDifference _ | LActApply | LActUnapply => true
  | _ => false
  end.
(** What the others do to the view: what they always do, but saveAll() finds no model to save. *)
Definition sstep (v : view) (o : lop) : option view :=
  if needs_list o then None else match o with LSaveAll _ => Some v | _ => vstep v o end.
Fixpoint srun (v : view) (l : list lop) : option view :=
  match l with [] => Some v | o :: l' => match sstep v o with Some v' => srun v' l' | None => None end end.

(** What can be asked: there are no models and nothing is unsaved; what is asked about the selected model is answered
    as before; asking which model is selected is undefined. *)
Record observed_stranded (s : mlist) (v : view) : Prop := {
  os_current_model : exists w, current_model s = UB w;
  os_models : model_count s = 0;
  os_unsaved : has_unsaved_changes s = Ok false;
  os_current_difference : current_difference s = Ok (Z.of_nat (v_diff v));
  os_differences : difference_count s = Ok (Z.of_nat (size_of v (v_model v)));
  os_applied : applied_count s = Ok (count_true (now_of v (v_model v))) }.

(** The actions once they are brought up to date: those that select something, and with a save action all others too,
    are disabled. *)
Definition all_disabled (s : mlist) : Prop :=
  ac_previous_file (ml_act s) = false /\ ac_next_file (ml_act s) = false /\ ac_previous (ml_act s) = false /\ ac_next (ml_act s) = false /\
  (ml_has_save s = true -> ac_apply (ml_act s) = false /\ ac_unapply (ml_act s) = false /\ ac_apply_all (ml_act s) = false /\
     ac_unapply_all (ml_act s) = false /\ ac_save (ml_act s) = false).
(** The actions after an operation: brought up to date by those on all differences and by a change of the mode; save
    disables itself; the others leave them as they are. *)
Definition acts_after (v : view) (o : lop) (s s' : mlist) : Prop :=
  match o with
  | LActApplyAll _ => all_disabled s'
  | LReadWrite b => if Bool.eqb (v_rw v) b then ml_act s' = ml_act s else all_disabled s'
  | LSave _ => (ml_has_save s = true -> ac_save (ml_act s') = false) /\ (ml_has_save s = false -> ml_act s' = ml_act s) /\
      ac_apply (ml_act s') = ac_apply (ml_act s) /\ ac_unapply (ml_act s') = ac_unapply (ml_act s) /\
      ac_apply_all (ml_act s') = ac_apply_all (ml_act s) /\ ac_unapply_all (ml_act s') = ac_unapply_all (ml_act s) /\
      ac_previous_file (ml_act s') = ac_previous_file (ml_act s) /\ ac_next_file (ml_act s') = ac_next_file (ml_act s) /\
      ac_previous (ml_act s') = ac_previous (ml_act s) /\ ac_next (ml_act s') = ac_next (ml_act s)
  | _ => ml_act s' = ml_act s
  end.
