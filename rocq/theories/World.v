(** Model of where ModelList::saveDestination writes (modellist.cpp 301-345), and of a list of models together with the files. *)
From Coq Require Import String.
From Verif Require Import Base QtStr Diff Save Parser Info ModelList SpecList.
Local Open Scope Z_scope.

(** The files, by url (as text). *)
Definition files := str -> option str.
Definition put_file (f : files) (url text : str) : files := fun u => if str_eqb url u then Some text else f u.
(** modellist.cpp 304-329, 342. A url is its text, and QUrl::setPath(path() + tmp) appends to it (right for urls without
    query and fragment). QString::remove(0, n) is [skipn]. *)
Definition save_target (i : info) (x : dmodel) : str :=
  match in_mode i with
  | ComparingDirs =>
      let tmp := dm_dpath x in
      let tmp := if starts_with (in_local_destination i) tmp then skipn (length (in_local_destination i)) tmp else tmp in
      in_destination i ++ tmp ++ dm_dfile x
  | _ => in_destination i
  end.
(** modellist.cpp 304: which branch is taken is told by info->mode; the other outcomes are given. *)
Definition env_in (i : info) (e : save_env) : save_env :=
  mk_save_env (se_open e) (se_write e) (se_close e) (mode_eqb (in_mode i) ComparingDirs) (se_stat e) (se_mkdir e) (se_copy e).
(** KIO::file_copy with KIO::Overwrite (329, 342): the text, if any, gets to the target. *)
Definition copied (i : info) (x : dmodel) (o : save_out) (f : files) : files :=
  match so_written o with Some text => put_file f (save_target i x) text | None => f end.
(** saveDestination of a model of the list, with its effect on the files. *)
Definition save_model_on (e : save_env) (s : mlist) (f : files) (m : nat) : res (mlist * files * bool) :=
  do x <- model_of s m;
  do i <- the_info s;
  do o <- save_destination (env_in i e) x;
  do r <- save_model (env_in i e) s m;
  Ok (fst r, copied i x o f, snd r).
(** slotSaveDestination (230-241) and saveAll (372-385), the same as in ModelList.v, with the files. *)
Definition slot_save_on (e : save_env) (s : mlist) (f : files) : res (mlist * files) :=
  match ml_sel s with
  | None => Ok (s, f)
  | Some m =>
      do i <- the_info s;
      do r <- save_model_on e s f m;
      do s <- slot_save (env_in i e) s;
      Ok (s, snd (fst r))
  end.
Fixpoint save_models_on (envs : nat -> save_env) (k : nat) (s : mlist) (f : files) (l : list nat) : res (mlist * files * bool) :=
  match l with
  | [] => Ok (s, f, true)
  | m :: l' =>
      do r <- save_model_on (envs k) s f m;
      let '(s, f, ok) := r in
      if ok : bool then save_models_on envs (S k) s f l' else Ok (s, f, false)
  end.
Definition save_all_on (envs : nat -> save_env) (s : mlist) (f : files) : res (mlist * files * bool) :=
  if Z.eqb (model_count s) 0 then Ok (s, f, false) else do l <- the_list s; save_models_on envs 0 s f l.
(** The operations of SpecList.v, with the files. *)
Definition run_on (s : mlist) (f : files) (o : lop) : res (mlist * files) :=
  match o with
  | LSave e => slot_save_on e s f
  | LSaveAll envs => do r <- save_all_on envs s f; Ok (fst r)
  | _ => do s <- run_lop s o; Ok (s, f)
  end.
Fixpoint runs_on (s : mlist) (f : files) (l : list lop) : res (mlist * files) :=
  match l with [] => Ok (s, f) | o :: l' => do r <- run_on s f o; runs_on (fst r) (snd r) l' end.
