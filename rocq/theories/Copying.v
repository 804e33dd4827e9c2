(** Model of the copy at the end of saveDiff: slotWriteDiffOutput (modellist.cpp 536-564) waits in KJob::exec() (line 554), which runs an
    event loop, so anything can happen to the list before lines 556-563. *)
From Coq Require Import String.
From Verif Require Import Base QtStr Settings Parser Info ModelList Process SaveDiff Jobs.
Local Open Scope Z_scope.

(** The copies under way, the innermost first: the url and the text in the temporary file (551-553). *)
Record bench := mk_bench { bn_desk : desk; bn_copies : list (str * str) }.
(** 536-554, up to the wait. The process has ended; it is deleted at 563. Its output is the text that is copied. *)
Definition bench_finished (o : outside) (b : bench) (code : Z) (st : exit_status) (out err : str) (ok : bool) : res bench :=
  let d := bn_desk b in
  match dk_job d, process_success code st with
  | Some (Writing, true), true =>
      match wr_process (dk_writer d) with
      | None => UB "null KompareProcess pointer"
      | Some _ =>
          if negb (wr_temp (dk_writer d)) then UB "null QTemporaryFile pointer"
          else Ok (mk_bench (mk_desk (dk_list d) (dk_writer d) (Some (Writing, false)) (dk_settings d)) ((wr_url (dk_writer d), out) :: bn_copies b))
      end
  | _, _ => do d <- desk_finished o d code st out err ok; Ok (mk_bench d (bn_copies b))
  end.
(** 554-563: exec() returns; d->diffTemp and d->diffProcess are those of now. The file is written at this moment (simplification: it may be a
    little earlier). *)
Definition bench_copied (ok : bool) (b : bench) : res bench :=
  match bn_copies b with
  | [] => Ok b                                               (* no copy is under way: there is no such event *)
  | (url, text) :: copies =>
      let d := bn_desk b in
      let w := dk_writer d in
      if negb (wr_temp w) then UB "null QTemporaryFile pointer"                                              (* 560 *)
      else
        do _ <- replace_process d;                                                                           (* 563 *)
        Ok (mk_bench (mk_desk (dk_list d) (mk_writer false [] None (file_copy ok (wr_files w) url text) (wr_out w ++ [StatusFinishedWriting])) None (dk_settings d)) copies)
  end.
Inductive bench_event := Ev (e : event) | Copied (ok : bool).
Definition bench_happen (other : str -> str -> str) (o : outside) (b : bench) (v : bench_event) : res bench :=
  match v with
  | Ev (Finished code st out err ok) => bench_finished o b code st out err ok
  | Ev e => do d <- happen other o (bn_desk b) e; Ok (mk_bench d (bn_copies b))
  | Copied ok => bench_copied ok b
  end.
Fixpoint bench_history (other : str -> str -> str) (o : outside) (b : bench) (l : list bench_event) : res bench :=
  match l with
  | [] => Ok b
  | v :: l' => do b <- bench_happen other o b v; bench_history other o b l'
  end.
