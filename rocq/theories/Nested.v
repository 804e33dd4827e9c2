(** Model of saving while other things happen. ModelList::saveDestination (modellist.cpp 243-370) waits three times in KJob::exec()
    (lines 320, 323, 330 and 338, 343), which runs an event loop of its own until the job has ended: meanwhile anything can happen to
    the list, also another save. Loops end in the opposite order of their beginning, so the saves under way are a stack.
    (KJob::exec runs the loop without user input events, so what happens meanwhile comes from timers, sockets, queued calls and ending
    processes; the model allows every call.) *)
From Coq Require Import String.
From Verif Require Import Base QtStr Diff Save Parser Blend Info ModelList Life World Rounds LifeWorld.
Local Open Scope Z_scope.

(** What is waited for: KIO::stat (320, 338), KIO::mkdir (323), KIO::file_copy (330, 343). *)
Inductive stage := Looking | MakingDirectory | Copying.
(** Who called saveDestination: slotSaveDestination (230-241), the user of the list, or saveAll (372-385) with the list it goes through and
    what of it is left. *)
Inductive caller := BySlot | ByCall | ByAll (all rest : list nat).
(** The local variables of a save under way: the model, what is in the temporary file, which branch of 304 was taken, and the url:
    fullDestinationPath of 314-316 and 328, or the destination handed to file_copy at 342. *)
Record saving := mk_sv { sv_by : caller; sv_model : nat; sv_text : str; sv_dirs : bool; sv_place : str; sv_stage : stage }.
Record loop := mk_loop { lp_list : mlist; lp_files : files; lp_stack : list saving }.

(** 250-318: up to the first wait. [inl]: saveDestination returns. Of [e] only the outcomes for the temporary file are used. *)
Definition attempt (e : save_env) (s : mlist) (m : nat) : res (mlist * (bool + str * bool * str)) :=
  do x <- model_of s m;
  do u <- has_unsaved x;
  if negb u then Ok (s, inl true)                                                             (* 250-251 *)
  else if negb (se_open e) then Ok (emit (Error SaveProblem) s, inl false)                    (* 255-259 *)
  else
    do lines <- saved_lines (dm_store x) (dm_hunks x);
    if negb (se_write e) then Ok (emit (Error SaveProblem) s, inl false)                      (* 288-292 *)
    else if negb (se_close e) then Ok (emit (Error SaveProblem) s, inl false)                 (* 294-299 *)
    else
      do i <- the_info s;
      if mode_eqb (in_mode i) ComparingDirs then                                              (* 304-316 *)
        let tmp := dm_dpath x in
        let tmp := if starts_with (in_local_destination i) tmp then skipn (length (in_local_destination i)) tmp else tmp in
        Ok (s, inr (concat_str lines, true, in_destination i ++ tmp))
      else Ok (s, inr (concat_str lines, false, [])).
(** 379-383: the loop of saveAll over *d->models from [rest] on. When the list has been emptied or replaced meanwhile, the iterators of
    the loop are invalid. *)
Fixpoint go_on (e : save_env) (all rest : list nat) (l : loop) : res loop :=
  match rest with
  | [] => Ok l
  | m :: rest' =>
      if match ml_models (lp_list l) with Some now => if list_eq_dec Nat.eq_dec now all then true else false | None => false end then
        do r <- attempt e (lp_list l) m;
        match r with
        | (s, inl true) => go_on e all rest' (mk_loop s (lp_files l) (lp_stack l))
        | (s, inl false) => Ok (mk_loop s (lp_files l) (lp_stack l))
        | (s, inr (text, dirs, place)) =>
            Ok (mk_loop s (lp_files l) (mk_sv (ByAll all rest') m text dirs place Looking :: lp_stack l))
        end
      else UB "saveAll goes on in a list that has changed"
  end.
(** 236-239: what slotSaveDestination does after saveDestination. *)
Definition after_slot (s : mlist) : mlist :=
  let a := ml_act s in
  let s := if ml_has_save s
           then with_act s (mk_actions (ac_apply a) (ac_unapply a) (ac_apply_all a) (ac_unapply_all a) false
                              (ac_previous_file a) (ac_next_file a) (ac_previous a) (ac_next a))
           else s in
  emit UpdateActions s.
(** saveDestination returns [ret] to its caller; [e] for the next model of saveAll. *)
Definition ended (e : save_env) (by_ : caller) (ret : bool) (l : loop) : res loop :=
  match by_ with
  | ByCall => Ok l
  | BySlot => Ok (mk_loop (after_slot (lp_list l)) (lp_files l) (lp_stack l))
  | ByAll all rest => if ret then go_on e all rest l else Ok l
  end.
Definition start (e : save_env) (by_ : caller) (m : nat) (l : loop) : res loop :=
  do r <- attempt e (lp_list l) m;
  match r with
  | (s, inl ret) => ended e by_ ret (mk_loop s (lp_files l) (lp_stack l))
  | (s, inr (text, dirs, place)) => Ok (mk_loop s (lp_files l) (mk_sv by_ m text dirs place Looking :: lp_stack l))
  end.
(** 328-330 and 341-343: the copy begins; the name of the file and the destination are looked at now. *)
Definition begin_copy (v : saving) (stack : list saving) (l : loop) : res loop :=
  do place <- (if sv_dirs v then do x <- model_of (lp_list l) (sv_model v); Ok (sv_place v ++ dm_dfile x)
               else do i <- the_info (lp_list l); Ok (in_destination i));
  Ok (mk_loop (lp_list l) (lp_files l) (mk_sv (sv_by v) (sv_model v) (sv_text v) (sv_dirs v) place Copying :: stack)).
(** The innermost exec() returns [ok]. The file is written at this moment (simplification: it may be a little earlier). *)
Definition returned (e : save_env) (ok : bool) (l : loop) : res loop :=
  match lp_stack l with
  | [] => Ok l                                                            (* no exec() is running: there is no such event *)
  | v :: stack =>
      match sv_stage v with
      | Looking => if (sv_dirs v && negb ok)%bool
                   then Ok (mk_loop (lp_list l) (lp_files l)
                              (mk_sv (sv_by v) (sv_model v) (sv_text v) (sv_dirs v) (sv_place v) MakingDirectory :: stack))
                   else begin_copy v stack l
      | MakingDirectory => if ok then begin_copy v stack l
                           else ended e (sv_by v) false (mk_loop (emit (Error SaveProblem) (lp_list l)) (lp_files l) stack)  (* 323-326 *)
      | Copying =>
          if ok then                                                      (* 361-369 *)
            do x <- model_of (lp_list l) (sv_model v);
            do st <- clear_unsaved (dm_diffs x) (dm_store x);
            ended e (sv_by v) true (mk_loop (put_model (lp_list l) (sv_model v) (with_store x st)) (put_file (lp_files l) (sv_place v) (sv_text v)) stack)
          else ended e (sv_by v) true (mk_loop (emit (Error SaveProblem) (lp_list l)) (lp_files l) stack)  (* 347-355, 369 *)
      end
  end.
(** What can happen. [Else]: everything of Life.v but saving, which is asked for by [Ask], [AskModel] or [AskAll]. *)
Inductive event :=
| Ask (e : save_env) | AskModel (e : save_env) (m : nat) | AskAll (e : save_env)
| Return (e : save_env) (ok : bool)
| Else (o : outside) (h : happening).
Definition happens (l : loop) (v : event) : res loop :=
  match v with
  | Ask e => match ml_sel (lp_list l) with None => Ok l | Some m => start e BySlot m l end                     (* 235-236 *)
  | AskModel e m => start e ByCall m l
  | AskAll e => if Z.eqb (model_count (lp_list l)) 0 then Ok l else do all <- the_list (lp_list l); go_on e all all l  (* 376-384 *)
  | Return e ok => returned e ok l
  | Else o h =>
      match h with
      | HSaveSelected _ | HSaveModel _ _ | HSaveAll _ => Ok l
      | _ => do s <- occur (outside_on o (lp_files l)) (lp_list l) h; Ok (mk_loop s (lp_files l) (lp_stack l))
      end
  end.
Fixpoint passes (l : loop) (vs : list event) : res loop :=
  match vs with
  | [] => Ok l
  | v :: vs' => do l <- happens l v; passes l vs'
  end.
