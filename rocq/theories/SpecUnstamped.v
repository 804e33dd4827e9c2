(** Specification: what is read again of a recreated diff some files of which have no time stamps. *)
From Coq Require Import String.
From Verif Require Import Base QtStr Diff SpecUnified.
Local Open Scope Z_scope.

Definition lines_terminated (p : upatch) : Prop := Forall (fun h => Forall seg_terminated (uh_segs h)) (up_hunks p).
(** No removed line begins with two dashes and a blank, so no line of a hunk looks like the heading of a file. *)
Definition no_dashes (p : upatch) : Prop :=
  Forall (fun h => Forall (fun s => match s with Chg r _ => Forall (fun l => ~ begins "-- " l) r | Ctx _ => True end) (uh_segs h)) (up_hunks p).
(** A file whose old name has no time stamp is passed over; one of which only the new name has none ends reading. *)
Fixpoint files_left (ps : list upatch) : list upatch :=
  match ps with
  | [] => []
  | p :: ps => match up_stamp1 p, up_stamp2 p with
               | [], _ => files_left ps
               | _ :: _, [] => []
               | _ :: _, _ :: _ => p :: files_left ps
               end
  end.
(** The diff is reported as malformed if a file that is read is followed by one that is passed over. *)
Fixpoint complaint_left (ps : list upatch) : bool :=
  match ps with
  | [] => false
  | p :: ps => match up_stamp1 p, up_stamp2 p with
               | [], _ => complaint_left ps
               | _ :: _, [] => false
               | _ :: _, _ :: _ => ((match ps with q :: _ => match up_stamp1 q with [] => true | _ => false end | [] => false end) || complaint_left ps)%bool
               end
  end.
