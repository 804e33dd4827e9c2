(** Model of the path functions of modellist_p.cpp. *)
From Verif Require Import Base QtStr Diff.

(** QString::indexOf(QChar, from), from >= 0: None stands for -1. *)
Definition index_from (c : chr) (s : str) (from : nat) : option nat :=
  match index_of c (skipn from s) with Some i => Some (from + i) | None => None end.
(** modellist_p.cpp 136-150 lstripSeparators; 139-144 is the loop. *)
Fixpoint lstrip_loop (from : str) (count : nat) (position : nat) : option nat :=
  match count with
  | O => Some position
  | S count => match index_from SLASH from position with
               | None => None
               | Some position => lstrip_loop from count position
               end
  end.
Definition lstrip_separators (from : str) (count : nat) : str :=
  match lstrip_loop from count 0 with
  | None => []
  | Some position => skipn (position + 1) from
  end.
(** modellist_p.cpp 152-161 setDepthAndApplied, for one model. *)
Definition set_depth_and_applied (depth : nat) (applied : bool) (m : dmodel) : res dmodel :=
  let m := set_source_file (lstrip_separators (dm_source m) depth) m in
  let m := set_destination_file (lstrip_separators (dm_destination m) depth) m in
  apply_all m applied.
