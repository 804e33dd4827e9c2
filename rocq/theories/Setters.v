(** Model of the remaining setters of the public classes (diffmodel.h, difference.h, diffhunk.h) and of sequences of calls of setters. *)
From Verif Require Import Base QtStr Diff Parser.
Local Open Scope Z_scope.

(** difference.cpp 94-99 setConflict. *)
Definition set_conflict (b : bool) (d : difference) : difference :=
  mk_diff (d_type d) (d_src d) (d_dst d) (d_track d) (d_slines d) (d_dlines d) (d_applied d) b (d_unsaved d) (d_connected d).
(** diffhunk.cpp 58-63 setType. *)
Definition hunk_set_type (ty : htype) (h : hunk) : hunk := mk_hunk (h_src h) (h_dst h) (h_function h) ty (h_diffs h).
(** diffmodel.cpp 389-394 setDiffIndex; 360-365 setBlended. *)
Definition set_diff_index (i : Z) (m : dmodel) : dmodel := with_selection m i (dm_sel m).
Definition set_blended (b : bool) (m : dmodel) : dmodel := with_blended m b.

(** The setters of a Difference (difference.h 59-81); apply() on a Difference that belongs to no model. *)
Inductive dset :=
| DsTracking (z : Z) | DsConflict (b : bool) | DsUnsaved (b : bool) | DsApply (b : bool) | DsType (ty : dtype) | DsSource (l : str) | DsDestination (l : str).
Definition do_dset (d : difference) (c : dset) : difference :=
  match c with
  | DsTracking z => set_track z d | DsConflict b => set_conflict b d | DsUnsaved b => set_unsaved b d | DsApply b => apply_quietly b d
  | DsType ty => set_type ty d | DsSource l => add_source_line l d | DsDestination l => add_destination_line l d
  end.
(** The setters of a DiffHunk (diffhunk.h). *)
Inductive hset := HsType (ty : htype) | HsAdd (i : nat).
Definition do_hset (h : hunk) (c : hset) : hunk := match c with HsType ty => hunk_set_type ty h | HsAdd i => hunk_add h i end.
(** The setters of a DiffModel (diffmodel.h 78-90, 100). addDiff is given a Difference that exists. *)
Inductive mset :=
| MsSource (p : str) | MsDestination (p : str) | MsSourceStamp (s : str) | MsDestinationStamp (s : str) | MsSourceRevision (s : str) | MsDestinationRevision (s : str)
| MsHunk (h : hunk) | MsDiff (i : nat) | MsIndex (i : Z) | MsBlended (b : bool).
Definition do_mset (m : dmodel) (c : mset) : res dmodel :=
  match c with
  | MsSource p => Ok (set_source_file p m) | MsDestination p => Ok (set_destination_file p m)
  | MsSourceStamp s => Ok (set_source_timestamp s m) | MsDestinationStamp s => Ok (set_destination_timestamp s m)
  | MsSourceRevision s => Ok (set_source_revision s m) | MsDestinationRevision s => Ok (set_destination_revision s m)
  | MsHunk h => Ok (add_hunk m h) | MsDiff i => add_diff m i | MsIndex i => Ok (set_diff_index i m) | MsBlended b => Ok (set_blended b m)
  end.
Fixpoint do_msets (m : dmodel) (cs : list mset) : res dmodel := match cs with [] => Ok m | c :: cs' => do m <- do_mset m c; do_msets m cs' end.
