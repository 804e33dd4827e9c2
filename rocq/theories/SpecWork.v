(** C103: what a diff says, and the work with it. *)
From Verif Require Import Base QtStr Diff Save Blend Info ModelList Life Reentrant.

(** What a difference says: everything but whether it is applied, whether that is saved, and the tracking line number. *)
Definition same_difference (d e : difference) : Prop :=
  d_type e = d_type d /\ d_src e = d_src d /\ d_dst e = d_dst d /\ d_slines e = d_slines d /\ d_dlines e = d_dlines d /\ d_conflicts e = d_conflicts d.
(** The hunks of the diff; blending adds others. *)
Definition from_diff (h : hunk) : bool := match h_type h with HNormal => true | HAddedByBlend => false end.
(** What a model says: names, time stamps, revisions, its hunks with their line numbers, functions and differences. *)
Record same_diff (x y : dmodel) : Prop := {
  sd_names : dm_source y = dm_source x /\ dm_destination y = dm_destination x /\ dm_spath y = dm_spath x /\ dm_dpath y = dm_dpath x /\
             dm_sfile y = dm_sfile x /\ dm_dfile y = dm_dfile x;
  sd_stamps : dm_sts y = dm_sts x /\ dm_dts y = dm_dts x /\ dm_srev y = dm_srev x /\ dm_drev y = dm_drev x;
  sd_diffs : dm_diffs y = dm_diffs x;
  sd_hunks : filter from_diff (dm_hunks y) = filter from_diff (dm_hunks x);
  sd_store : forall i d, nth_error (dm_store x) i = Some d -> exists e, nth_error (dm_store y) i = Some e /\ same_difference d e }.
(** The same differences are applied. *)
Definition same_marks (x y : dmodel) : Prop :=
  forall i d, nth_error (dm_store x) i = Some d -> exists e, nth_error (dm_store y) i = Some e /\ d_applied e = d_applied d.

(** A call of one of the own functions of the model [m]. *)
Definition edits (m : nat) (h : happening) : bool := match h with HModel m' _ => Nat.eqb m m' | _ => false end.
(** A call that applies or unapplies. *)
Definition applies (h : happening) : bool := match h with HApply _ | HApplyAll _ | HActApply | HActUnapply | HActApplyAll _ => true | _ => false end.
(** A history in which slots call the list back ([calls]; [n] calls within each other). *)
Fixpoint lively (calls : caller) (n : nat) (s : mlist) (l : list (outside * happening)) : res mlist :=
  match l with
  | [] => Ok s
  | (o, h) :: l' => do s <- occur_k (nested calls o n) o s h; lively calls n s l'
  end.
