(** Model of the runs of diff in one ModelList (modellist.cpp, kompareprocess.cpp): comparing and saveDiff share one process
    pointer (modellist_p.h 71), and the process ends some time after the call that started it has returned. *)
From Coq Require Import String.
From Verif Require Import Base QtStr Settings Parser Info ModelList Process SaveDiff.
Local Open Scope Z_scope.

(** What the process is for: the slot its diffHasFinished is connected to (modellist.cpp 168 and 529). *)
Inductive job := Comparison | Writing.
(** [dk_job]: d->diffProcess, with its job and whether the process is running; ml_process and wr_process are what the two slots
    see of it. The signals of the list and of saveDiff are kept in two traces (ml_out and wr_out), so their relative order is
    not. [dk_settings]: d->diffSettings. *)
Record desk := mk_desk { dk_list : mlist; dk_writer : writer; dk_job : option (job * bool); dk_settings : option settings }.
Definition busy (d : desk) : bool := match dk_job d with Some (_, b) => b | None => false end.

(** modellist.cpp 165 and 526, assigning a new process to d->diffProcess deletes the old one. Deleting a QProcess that is
    running kills it and waits for its end (Qt, not in /repo), which emits finished() to KompareProcess::slotFinished
    (kompareprocess.cpp 61) of an object whose KompareProcess part has been destroyed. *)
Definition replace_process (d : desk) : res unit :=
  if busy d then UB "slotFinished of a destroyed KompareProcess" else Ok tt.
(** modellist.cpp 159-174 compare(mode); [other] as in Process.v. *)
Definition desk_compare_mode (other : str -> str -> str) (d : desk) : res desk :=
  do i <- the_info (dk_list d);
  do _ <- compare_process other (dk_settings d) i (in_mode i);
  do _ <- replace_process d;
  Ok (mk_desk (compare_mode (dk_list d)) (dk_writer d) (Some (Comparison, true)) (dk_settings d)).
(** modellist.cpp 100-157 compare: whether it runs diff (106-108 and 138-141) or reads a diff (125-137, 142-154). *)
Definition runs_diff (o : outside) (i : info) : bool :=
  let sd := os_is_dir o (in_local_source i) in
  let dd := os_is_dir o (in_local_destination i) in
  if (sd && dd)%bool then true
  else if (negb sd && negb dd)%bool then Bool.eqb (os_is_diff o (in_local_source i)) (os_is_diff o (in_local_destination i))
  else false.
Definition desk_compare (other : str -> str -> str) (o : outside) (d : desk) : res desk :=
  do i <- the_info (dk_list d);
  if runs_diff o i then
    do r <- compare o (dk_list d);
    do j <- the_info (fst r);
    do _ <- compare_process other (dk_settings d) j (in_mode j);
    do _ <- replace_process d;
    Ok (mk_desk (fst r) (dk_writer d) (Some (Comparison, true)) (dk_settings d))
  else
    do r <- compare o (dk_list d);
    Ok (mk_desk (fst r) (dk_writer d) (dk_job d) (dk_settings d)).
(** modellist.cpp 948-954 refresh. *)
Definition desk_refresh (other : str -> str -> str) (d : desk) : res desk := desk_compare_mode other d.
(** modellist.cpp 956-965 swap; the caller has exchanged the sides (Info::swapSourceWithDestination). *)
Definition desk_swap (other : str -> str -> str) (d : desk) : res desk :=
  do i <- the_info (dk_list d);
  match in_mode i with
  | ComparingFiles | ComparingDirs => desk_compare_mode other d
  | _ => Ok d
  end.
(** modellist.cpp 510-534 saveDiff: when the temporary file cannot be opened, the process is left alone. *)
Definition desk_save_diff (other : str -> str -> str) (opens : bool) (d : desk) (url directory : str) (st : option settings) : res desk :=
  if opens then
    do i <- the_info (dk_list d);
    do r <- save_diff other true i (dk_writer d) url directory st;
    do _ <- replace_process d;
    Ok (mk_desk (dk_list d) (fst r) (Some (Writing, true)) (dk_settings d))
  else
    do r <- save_diff other false default_info (dk_writer d) url directory st;
    Ok (mk_desk (dk_list d) (fst r) (dk_job d) (dk_settings d)).
(** kompareprocess.cpp 249-262 slotFinished, and the slot that diffHasFinished is connected to. Without a running process there
    is no such event. *)
Definition desk_finished (o : outside) (d : desk) (code : Z) (st : exit_status) (out err : str) (ok : bool) : res desk :=
  match dk_job d with
  | Some (Comparison, true) =>
      do s <- slot_diff_process_finished o (dk_list d) (process_success code st) st out err;
      Ok (mk_desk s (dk_writer d) None (dk_settings d))
  | Some (Writing, true) =>
      do w <- slot_write_diff_output ok (dk_writer d) (process_success code st) out;
      Ok (mk_desk (dk_list d) w None (dk_settings d))
  | _ => Ok d
  end.
(** The program cannot be started: QProcess emits no finished(), and nobody listens to its other signals. *)
Definition desk_not_started (d : desk) : desk :=
  match dk_job d with
  | Some (j, true) => mk_desk (dk_list d) (dk_writer d) (Some (j, false)) (dk_settings d)
  | _ => d
  end.
(** What happens to the list: calls of its user, and the end of a process. *)
Inductive event :=
| Compare | Refresh | Swap
| SaveDiff (opens : bool) (url directory : str) (st : option settings)
| Finished (code : Z) (st : exit_status) (out err : str) (ok : bool)
| NotStarted.
Definition happen (other : str -> str -> str) (o : outside) (d : desk) (e : event) : res desk :=
  match e with
  | Compare => desk_compare other o d
  | Refresh => desk_refresh other d
  | Swap => desk_swap other d
  | SaveDiff opens url directory st => desk_save_diff other opens d url directory st
  | Finished code st out err ok => desk_finished o d code st out err ok
  | NotStarted => Ok (desk_not_started d)
  end.
Fixpoint history (other : str -> str -> str) (o : outside) (d : desk) (l : list event) : res desk :=
  match l with
  | [] => Ok d
  | e :: l' => do d <- happen other o d e; history other o d l'
  end.
