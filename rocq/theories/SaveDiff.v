(** Model of ModelList::saveDiff and slotWriteDiffOutput (modellist.cpp 510-564): running diff again and copying its
    output to a file. Files are texts by url. *)
From Coq Require Import String.
From Verif Require Import Base Settings Parser Info Process.
Open Scope Z_scope.

Inductive writer_signal := CannotOpenTemporary | StatusRunningDiff | StatusFinishedWriting.
(** d->diffTemp (there or not), d->diffURL, d->diffProcess, the files, the signals emitted. *)
Record writer := mk_writer {
  wr_temp : bool; wr_url : str; wr_process : option process; wr_files : str -> option str; wr_out : list writer_signal }.
(** 510-534 saveDiff. [opens]: QTemporaryFile::open. *)
Definition save_diff (other : str -> str -> str) (opens : bool) (i : info) (w : writer) (url directory : str) (st : option settings) : res (writer * bool) :=
  if negb opens then Ok (mk_writer false url (wr_process w) (wr_files w) (wr_out w ++ [CannotOpenTemporary]), false)
  else
    do p <- save_diff_process other st i directory;
    Ok (mk_writer true url (Some p) (wr_files w) (wr_out w ++ [StatusRunningDiff]), true).
(** KIO::file_copy without the Overwrite flag: an existing target is left alone. [ok]: the copy would otherwise
    succeed. *)
Definition file_copy (ok : bool) (files : str -> option str) (url text : str) : str -> option str :=
  match files url with
  | Some _ => files
  | None => if ok then fun u => if str_eqb url u then Some text else files u else files
  end.
(** 536-564 slotWriteDiffOutput; the result of the copy is not looked at. [out] is what diff printed. *)
Definition slot_write_diff_output (ok : bool) (w : writer) (success : bool) (out : str) : res writer :=
  match wr_process w with
  | None => UB "null KompareProcess pointer"
  | Some _ =>
      if negb (wr_temp w) then UB "null QTemporaryFile pointer"
      else if success then
        Ok (mk_writer false [] None (file_copy ok (wr_files w) (wr_url w) out) (wr_out w ++ [StatusFinishedWriting]))
      else Ok (mk_writer false [] None (wr_files w) (wr_out w))
  end.
