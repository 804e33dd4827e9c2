(** Model of ModelList::saveDestination (modellist.cpp 243-370). *)
From Coq Require Import String.
From Verif Require Import Base QtStr Diff.

(** Outcomes of the environment calls: QTemporaryFile::open, error() after writing and after closing,
    info->mode == ComparingDirs, KIO::stat, KIO::mkdir, KIO::file_copy. *)
Record save_env := mk_save_env {
  se_open : bool; se_write : bool; se_close : bool;
  se_dirs : bool; se_stat : bool; se_mkdir : bool; se_copy : bool }.

(** modellist.cpp 264-282: the text: source lines of applied differences, destination lines of the
    others, over all hunks and differences in order, joined without separator (286-287). *)
Definition saved_lines_of (d : difference) : list str :=
  if d_applied d then map ds_string (d_slines d) else map ds_string (d_dlines d).
Fixpoint saved_lines (st : list difference) (hs : list hunk) : res (list str) :=
  match hs with
  | [] => Ok []
  | h :: hs' =>
      do ds <- deref_all st (h_diffs h);
      do l <- saved_lines st hs';
      Ok (concat (map saved_lines_of ds) ++ l)
  end.

(** modellist.cpp 361-367: setUnsaved(false) on every listed difference. *)
Fixpoint clear_unsaved (l : list nat) (st : list difference) : res (list difference) :=
  match l with
  | [] => Ok st
  | i :: l' => do d <- deref st i; clear_unsaved l' (update st i (set_unsaved false d))
  end.

(** What a call does: its return value, the text copied to the destination (if the copy succeeded),
    whether the error signal was emitted, and the new model. *)
Record save_out := mk_save_out {
  so_ret : bool; so_written : option str; so_error : bool; so_model : dmodel }.

Definition save_destination (e : save_env) (m : dmodel) : res save_out :=
  do u <- has_unsaved m;
  if negb u then Ok (mk_save_out true None false m)                       (* 250-251 *)
  else if negb (se_open e) then Ok (mk_save_out false None true m)        (* 255-259 *)
  else
    do lines <- saved_lines (dm_store m) (dm_hunks m);
    let text := concat_str lines in
    if negb (se_write e) then Ok (mk_save_out false None true m)          (* 288-292 *)
    else if negb (se_close e) then Ok (mk_save_out false None true m)     (* 294-299 *)
    else if (se_dirs e && negb (se_stat e) && negb (se_mkdir e))%bool
    then Ok (mk_save_out false None true m)                               (* 304-327 *)
    else if se_copy e then
      do st <- clear_unsaved (dm_diffs m) (dm_store m);                   (* 361-367 *)
      Ok (mk_save_out true (Some text) false (with_store m st))
    else Ok (mk_save_out true None true m).                               (* 347-355, 369 *)

(** modellist.cpp 372-385 saveAll: stops at the first model whose save returns false; one
    environment per model. *)
Fixpoint save_all_loop (envs : list save_env) (ms : list dmodel) {struct ms} : res (bool * list save_out) :=
  match ms with
  | [] => Ok (true, [])
  | m :: ms' =>
      match envs with
      | [] => OutOfFuel
      | e :: envs' =>
          do o <- save_destination e m;
          if so_ret o then
            do r <- save_all_loop envs' ms';
            Ok (fst r, o :: snd r)
          else Ok (false, [o])
      end
  end.
Definition save_all (envs : list save_env) (ms : list dmodel) : res (bool * list save_out) :=
  match ms with
  | [] => Ok (false, [])
  | _ => save_all_loop envs ms
  end.

(** modellist.cpp 497-508 ModelList::recreateDiff: the texts of the models, one after the other. *)
Fixpoint recreate_all (ms : list dmodel) : res str :=
  match ms with
  | [] => Ok []
  | m :: ms' => do s1 <- recreate_diff m; do s2 <- recreate_all ms'; Ok (s1 ++ s2)
  end.
