(** Specification of histories of applying, unapplying and saving. *)
From Verif Require Import Base Diff Save.
Local Open Scope Z_scope.

(** What a user can do to a model. Differences are named by their position in the list. *)
Inductive op :=
| Select (k : nat)                  (* DiffModel::setSelectedDifference(differenceAt(k)) *)
| ApplySelected (b : bool)          (* DiffModel::applyDifference(b) *)
| ApplyDirect (k : nat) (b : bool)  (* differenceAt(k)->apply(b) *)
| ApplyAll (b : bool)               (* DiffModel::applyAllDifferences(b) *)
| SaveOp (e : save_env).            (* ModelList::saveDestination, with any environment *)

Definition run_op (m : dmodel) (o : op) : res dmodel :=
  match o with
  | Select k => do i <- diff_at m (Z.of_nat k); Ok (fst (set_selected_difference m (Some i)))
  | ApplySelected b => apply_difference m b
  | ApplyDirect k b => do i <- diff_at m (Z.of_nat k); apply_id m i b
  | ApplyAll b => apply_all m b
  | SaveOp e => do r <- save_destination e m; Ok (so_model r)
  end.
Fixpoint run (m : dmodel) (ops : list op) : res dmodel :=
  match ops with
  | [] => Ok m
  | o :: ops' => do m' <- run_op m o; run m' ops'
  end.

(** The abstract state: which differences are applied, which were applied at the last successful
    save, and which one is selected. *)
Record flags := mk_flags { f_now : list bool; f_saved : list bool; f_sel : option nat }.
(** A save succeeds when every environment call it needs succeeds. *)
Definition save_succeeds (e : save_env) : bool :=
  (se_open e && se_write e && se_close e && (negb (se_dirs e) || se_stat e || se_mkdir e) && se_copy e)%bool.
(** [None]: the history applies "the selected difference" when none is selected, or names a difference
    that does not exist. *)
Definition abs_op (s : flags) (o : op) : option flags :=
  match o with
  | Select k => if Nat.ltb k (length (f_now s)) then Some (mk_flags (f_now s) (f_saved s) (Some k)) else None
  | ApplySelected b =>
      match f_sel s with
      | Some k => Some (mk_flags (update (f_now s) k b) (f_saved s) (f_sel s))
      | None => None
      end
  | ApplyDirect k b =>
      if Nat.ltb k (length (f_now s)) then Some (mk_flags (update (f_now s) k b) (f_saved s) (f_sel s)) else None
  | ApplyAll b => Some (mk_flags (map (fun _ => b) (f_now s)) (f_saved s) (f_sel s))
  | SaveOp e => Some (mk_flags (f_now s) (if save_succeeds e then f_now s else f_saved s) (f_sel s))
  end.
Fixpoint abs_run (s : flags) (ops : list op) : option flags :=
  match ops with
  | [] => Some s
  | o :: ops' => match abs_op s o with Some s' => abs_run s' ops' | None => None end
  end.
Definition abs_init (n : nat) : flags := mk_flags (repeat false n) (repeat false n) None.

(** The listed differences of a model. *)
Definition listed (m : dmodel) : res (list difference) := deref_all (dm_store m) (dm_diffs m).

(** Lines gained before position k by the applied differences. *)
Fixpoint gained (ds : list difference) (fs : list bool) (k : nat) : Z :=
  match k, ds, fs with
  | S k', d :: ds', f :: fs' => (if f : bool then dlc d - slc d else 0) + gained ds' fs' k'
  | _, _, _ => 0
  end.

(** A difference with another tracking number, applied and unsaved state, all else equal. *)
Definition restate (d : difference) (track : Z) (applied unsaved : bool) : difference :=
  mk_diff (d_type d) (d_src d) (d_dst d) track (d_slines d) (d_dlines d)
    applied (d_conflicts d) unsaved (d_connected d).

Fixpoint increasing (l : list Z) : Prop :=
  match l with
  | x :: (y :: _) as l' => x < y /\ increasing l'
  | _ => True
  end.

(** A model as the parser hands it over: nothing applied, nothing selected, listed differences connected
    and in strictly increasing destination order, each object listed once. *)
Record fresh (m : dmodel) (ds : list difference) : Prop := {
  fr_listed : listed m = Ok ds;
  fr_nodup : NoDup (dm_diffs m);
  fr_hunks : forall h, In h (dm_hunks m) -> forall i, In i (h_diffs h) -> (i < length (dm_store m))%nat;
  fr_state : forall d, In d ds -> d_applied d = false /\ d_unsaved d = false /\ d_connected d = true /\ d_track d = d_src d;
  fr_order : increasing (map d_dst ds);
  fr_count : dm_applied m = 0;
  fr_sel : dm_sel m = None }.

Fixpoint count_true (l : list bool) : Z :=
  match l with [] => 0 | b :: l' => (if b : bool then 1 else 0) + count_true l' end.
Definition no_direct (o : op) : bool := match o with ApplyDirect _ _ => false | _ => true end.

(** Everything except the Difference objects, the applied count and the selection. *)
Definition same_rest (m m' : dmodel) : Prop :=
  dm_source m' = dm_source m /\ dm_destination m' = dm_destination m /\
  dm_spath m' = dm_spath m /\ dm_dpath m' = dm_dpath m /\ dm_sfile m' = dm_sfile m /\ dm_dfile m' = dm_dfile m /\
  dm_sts m' = dm_sts m /\ dm_dts m' = dm_dts m /\ dm_srev m' = dm_srev m /\ dm_drev m' = dm_drev m /\
  dm_hunks m' = dm_hunks m /\ dm_diffs m' = dm_diffs m /\ dm_blended m' = dm_blended m /\
  length (dm_store m') = length (dm_store m) /\
  forall i, ~ In i (dm_diffs m) -> nth_error (dm_store m') i = nth_error (dm_store m) i.
