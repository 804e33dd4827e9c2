(** Model of slots that call the list back: the functions of ModelList.v and Life.v once more, where each Q_EMIT runs the slots that are
    connected ([k]: what they make of the list, given the signal; direct connections) before the function goes on. Slots may run any
    operation, also one whose signals call them again; what a function uses after a Q_EMIT are the members of the list as the slots
    left them, and the local variables it had before. *)
From Coq Require Import String.
From Verif Require Import Base QtStr Diff Save Parser Blend Info ModelList Life.
Local Open Scope Z_scope.

Definition slots := signal -> mlist -> res mlist.
(** Q_EMIT. *)
Definition raise (k : slots) (g : signal) (s : mlist) : res mlist := k g (emit g s).

(** modellist.cpp 621-626 (and wherever setStatusBarModelInfo is emitted by a slot): all arguments are members. *)
Definition status_bar_k (k : slots) (s : mlist) : res mlist :=
  do i <- find_model s (ml_sel s);
  do r <- selected s;
  let '(m, x) := r in
  do n <- difference_count s;
  raise k (SetStatusBar i (index_of_diff m x (ml_diff s)) (model_count s) n (dm_applied x)) s.
(** 641-647 and 697-703. *)
Definition announce_k (k : slots) (s : mlist) : res mlist :=
  do s <- raise k (SetSelection (ml_sel s) (ml_diff s)) s;
  do s <- status_bar_k k s;
  update_actions s.
Definition announce_difference_k (k : slots) (s : mlist) : res mlist :=
  do s <- raise k (SetSelectionOf (ml_diff s)) s;
  do s <- status_bar_k k s;
  update_actions s.
(** 566-602: the arguments are announced (593), then the members. *)
Definition slot_selection_changed_k (k : slots) (s : mlist) (m : option nat) (d : option dref) : res mlist :=
  let s := with_sel s m in
  do l <- the_list s;
  let s := with_diff (with_index s (index_in m l)) d in
  match m with
  | None => UB "null DiffModel pointer"
  | Some m' =>
      do r <- select_in s m' d;
      do r <- set_selected_model (fst r) (ml_sel (fst r));
      let '(s, ok) := r in
      do s <- (if ok then
                 match ml_sel s with
                 | None => UB "null DiffModel pointer"
                 | Some m' =>
                     do r <- select_in s m' (ml_diff s);
                     let '(s, ok) := r in
                     if ok then Ok s else to_first_difference s
                 end
               else do s <- first_model s; to_first_difference s);
      do s <- raise k (SetSelection m d) s;
      do s <- status_bar_k k s;
      update_actions s
  end.
(** 604-628. *)
Definition slot_difference_changed_k (k : slots) (s : mlist) (d : option dref) : res mlist :=
  let s := with_diff s d in
  match ml_sel s with
  | None => UB "null DiffModel pointer"
  | Some m =>
      do r <- select_in s m d;
      let '(s, ok) := r in
      do s <- (if ok then Ok s else to_first_difference s);
      do s <- raise k (SetSelectionOf d) s;
      do s <- status_bar_k k s;
      update_actions s
  end.
(** 630-648, 650-668. *)
Definition slot_previous_model_k (k : slots) (s : mlist) : res mlist :=
  do s <- prev_model s;
  do s <- (match ml_sel s with Some _ => Ok s | None => first_model s end);
  do s <- to_first_difference s;
  announce_k k s.
Definition slot_next_model_k (k : slots) (s : mlist) : res mlist :=
  do s <- next_model s;
  do s <- (match ml_sel s with Some _ => Ok s | None => last_model s end);
  do s <- to_first_difference s;
  announce_k k s.
(** 691-735, 737-781. *)
Definition slot_previous_difference_k (k : slots) (s : mlist) : res mlist :=
  do r <- selected s;
  let '(m, x) := r in
  do r <- prev_difference x;
  let '(x, j) := r in
  let s := put_model s m x in
  match j with
  | Some j => announce_difference_k k (with_diff s (Some (m, j)))
  | None =>
      do s <- prev_model (with_diff s None);
      match ml_sel s with
      | Some _ => do s <- to_last_difference s; announce_k k s
      | None => do s <- first_model s; do s <- to_first_difference s; announce_k k s
      end
  end.
Definition slot_next_difference_k (k : slots) (s : mlist) : res mlist :=
  do r <- selected s;
  let '(m, x) := r in
  do r <- next_difference x;
  let '(x, j) := r in
  let s := put_model s m x in
  match j with
  | Some j => announce_difference_k k (with_diff s (Some (m, j)))
  | None =>
      do s <- next_model (with_diff s None);
      match ml_sel s with
      | Some _ => do s <- to_first_difference s; announce_k k s
      | None => do s <- last_model s; do s <- to_last_difference s; announce_k k s
      end
  end.
(** 783-789, 791-797. *)
Definition slot_apply_difference_k (k : slots) (s : mlist) (b : bool) : res mlist :=
  do r <- selected s;
  let '(m, x) := r in
  do x <- apply_difference x b;
  raise k (Applied b) (put_model s m x).
Definition slot_apply_all_k (k : slots) (s : mlist) (b : bool) : res mlist :=
  do r <- selected s;
  let '(m, x) := r in
  do x <- apply_all x b;
  raise k (AppliedAll b) (put_model s m x).
(** 1008-1042. *)
Definition slot_action_apply_k (k : slots) (s : mlist) : res mlist :=
  do d <- difference_of s (ml_diff s);
  do s <- (if d_applied d then Ok s else slot_apply_difference_k k s true);
  do s <- slot_next_difference_k k s;
  update_actions s.
Definition slot_action_unapply_k (k : slots) (s : mlist) : res mlist :=
  do d <- difference_of s (ml_diff s);
  do s <- (if d_applied d then slot_apply_difference_k k s false else Ok s);
  do s <- slot_previous_difference_k k s;
  update_actions s.
Definition slot_action_apply_all_k (k : slots) (s : mlist) (b : bool) : res mlist :=
  do s <- slot_apply_all_k k s b; update_actions s.
(** 243-370: after an error (255, 288, 294, 324, 347) the model is not touched any more: a save with an error clears no flags (361-366),
    so that the model can be stored before the error is told. The save itself is one step (Nested.v: what happens while it waits). *)
Definition save_model_k (k : slots) (e : save_env) (s : mlist) (m : nat) : res (mlist * bool) :=
  do x <- model_of s m;
  do o <- save_destination e x;
  let s := put_model s m (so_model o) in
  do s <- (if so_error o then raise k (Error SaveProblem) s else Ok s);
  Ok (s, so_ret o).
(** 230-241. *)
Definition slot_save_k (k : slots) (e : save_env) (s : mlist) : res mlist :=
  match ml_sel s with
  | None => Ok s
  | Some m =>
      do r <- save_model_k k e s m;
      let '(s, _) := r in
      let a := ml_act s in
      let s := if ml_has_save s
               then with_act s (mk_actions (ac_apply a) (ac_unapply a) (ac_apply_all a) (ac_unapply_all a) false
                                  (ac_previous_file a) (ac_next_file a) (ac_previous a) (ac_next a))
               else s in
      raise k UpdateActions s
  end.
(** 372-385: the loop goes over *d->models; when the slots have emptied or replaced the list, its iterators are invalid. *)
Definition same_list (l : list nat) (s : mlist) : bool :=
  match ml_models s with Some now => if list_eq_dec Nat.eq_dec now l then true else false | None => false end.
Fixpoint save_models_k (k : slots) (envs : nat -> save_env) (j : nat) (s : mlist) (all l : list nat) : res (mlist * bool) :=
  match l with
  | [] => Ok (s, true)
  | m :: l' =>
      do r <- save_model_k k (envs j) s m;
      let '(s, ok) := r in
      if ok : bool then
        if same_list all s then save_models_k k envs (S j) s all l'
        else UB "saveAll goes on in a list that has changed"
      else Ok (s, false)
  end.
Definition save_all_models_k (k : slots) (envs : nat -> save_env) (s : mlist) : res (mlist * bool) :=
  if Z.eqb (model_count s) 0 then Ok (s, false) else do l <- the_list s; save_models_k k envs 0 s l l.
(** 938-946. *)
Definition clear_k (k : slots) (s : mlist) : res mlist :=
  let s := match ml_models s with Some _ => with_models s (ml_heap s) (Some []) | None => s end in
  raise k (ModelsChanged (ml_models s)) s.
(** 799-834. *)
Definition parse_diff_output_k (k : slots) (o : outside) (s : mlist) (diff : str) : res (mlist * bool) :=
  do s <- raise k (DiffString diff) s;
  do p <- parse (os_sort o) (split_lines diff);
  let h := match ml_models s with Some l => delete_all l (ml_heap s) | None => ml_heap s end in
  let s := match po_models p with
           | Some ms => with_models s (h ++ map Some ms) (Some (seq (length h) (length ms)))
           | None => with_models s h None
           end in
  do i <- the_info s;
  let s := with_info s (Some (with_parsed i (po_generator p) (po_format p))) in
  match ml_models s with
  | None => Ok (s, false)
  | Some _ =>
      do s <- (if po_malformed p then raise k (Error Malformed) s else Ok s);
      do s <- first_model s;
      do s <- to_first_difference s;
      do n <- difference_count s;
      do s <- raise k (SetStatusBar 0 0 (model_count s) n 0) s;
      Ok (s, true)
  end.
(** 880-887: the list, then the selection as it is then. *)
Definition show_k (k : slots) (s : mlist) : res mlist :=
  do l <- the_list s;
  do s <- raise k (ModelsChanged (Some l)) s;
  raise k (SetSelection (ml_sel s) (ml_diff s)) s.
(** 449-475, 477-495. *)
Definition parse_and_open_k (k : slots) (o : outside) (s : mlist) (diff : str) : res (mlist * bool) :=
  do s <- clear_k k s;
  do s <- raise k (Status Parsing) s;
  do r <- parse_diff_output_k k o s diff;
  let '(s, ok) := r in
  if ok : bool then
    do s <- update_actions s;
    do s <- show_k k s;
    do s <- raise k (Status FinishedParsing) s;
    Ok (s, true)
  else do s <- raise k (Error NotParsed) s; Ok (s, false).
(** 422-447: the process is deleted at the end. *)
Definition slot_diff_process_finished_k (k : slots) (o : outside) (s : mlist) (success : bool) (st : exit_status) (out err : str) : res mlist :=
  if negb (ml_process s) then UB "null KompareProcess pointer"
  else
    do s <- (if success then
               do s <- raise k (Status Parsing) s;
               do r <- parse_diff_output_k k o s out;
               let '(s, ok) := r in
               do s <- (if negb ok then raise k (Error NotParsed) s
                        else
                          do i <- the_info s;
                          do s <- (if mode_eqb (in_mode i) ShowingDiff then Ok s
                                   else do r <- blend_original o s (in_local_source i); Ok (fst r));
                          do s <- update_actions s;
                          show_k k s);
               raise k (Status FinishedParsing) s
             else match st with
                  | NormalExit => raise k (Error Identical) s
                  | CrashExit => raise k (Error (ProcessError err)) s
                  end);
    Ok (with_process s false).

(** 176-200, 202-228. *)
Definition open_and_blend_k (k : slots) (o : outside) (s : mlist) : res (mlist * bool) :=
  do s <- clear_k k s;
  do i <- the_info s;
  do r <- parse_diff_output_k k o s (os_read o (in_local_destination i));
  let '(s, ok) := r in
  if negb ok then do s <- raise k (Error NoModels) s; Ok (s, false)
  else
    do i <- the_info s;
    do l <- the_list s;
    do s <- depth_and_applied i s l;
    do r <- blend_original o s (in_local_source i);
    let '(s, ok) := r in
    if negb ok then do s <- raise k (Error NotApplied) s; Ok (s, false)
    else
      do s <- update_actions s;
      do s <- show_k k s;
      Ok (s, true).
(** 159-174: the process is made (163), the signal emitted (169), then the process that is there is started (170). *)
Definition compare_mode_k (k : slots) (s : mlist) : res mlist :=
  do s <- clear_k k s;
  do s <- raise k (Status RunningDiff) (with_process s true);
  if ml_process s then Ok s else UB "null KompareProcess pointer".
(** 100-157. *)
Definition compare_k (k : slots) (o : outside) (s : mlist) : res (mlist * bool) :=
  do i <- the_info s;
  let sd := os_is_dir o (in_local_source i) in
  let dd := os_is_dir o (in_local_destination i) in
  if (sd && dd)%bool then do s <- compare_mode_k k (with_info s (Some (with_mode i ComparingDirs))); Ok (s, true)
  else if (negb sd && negb dd)%bool then
    let sp := os_is_diff o (in_local_source i) in
    let dp := os_is_diff o (in_local_destination i) in
    if (negb sp && dp)%bool then open_and_blend_k k o (with_info s (Some (with_mode i BlendingFile)))
    else if (sp && negb dp)%bool then
      open_and_blend_k k o (with_info s (Some (swap_source_with_destination (with_mode i BlendingFile))))
    else do s <- compare_mode_k k (with_info s (Some (with_mode i ComparingFiles))); Ok (s, true)
  else if (sd && negb dd)%bool then open_and_blend_k k o (with_info s (Some (with_mode i BlendingDir)))
  else open_and_blend_k k o (with_info s (Some (swap_source_with_destination (with_mode i BlendingDir)))).
(** 477-495 openDiff. *)
Definition open_diff_k (k : slots) (o : outside) (s : mlist) (file : str) : res (mlist * bool) :=
  match file with [] => Ok (s, false) | _ => parse_and_open_k k o s (os_read o file) end.
(** 948-965. *)
Definition refresh_k (k : slots) (s : mlist) : res mlist := do _ <- the_info s; compare_mode_k k s.
Definition swap_k (k : slots) (s : mlist) : res mlist :=
  do i <- the_info s;
  match in_mode i with
  | ComparingFiles | ComparingDirs => compare_mode_k k s
  | _ => Ok s
  end.

(** Everything that can happen (Life.v). *)
Definition first_k (r : res (mlist * bool)) : res mlist := do r <- r; Ok (fst r).
Definition occur_k (k : slots) (o : outside) (s : mlist) (h : happening) : res mlist :=
  match h with
  | HNextDifference => slot_next_difference_k k s
  | HPreviousDifference => slot_previous_difference_k k s
  | HNextModel => slot_next_model_k k s
  | HPreviousModel => slot_previous_model_k k s
  | HSelect m d => slot_selection_changed_k k s m d
  | HSelectDifference d => slot_difference_changed_k k s d
  | HApply b => slot_apply_difference_k k s b
  | HApplyAll b => slot_apply_all_k k s b
  | HActApply => slot_action_apply_k k s
  | HActUnapply => slot_action_unapply_k k s
  | HActApplyAll b => slot_action_apply_all_k k s b
  | HSaveSelected e => slot_save_k k e s
  | HSaveModel e m => first_k (save_model_k k e s m)
  | HSaveAll envs => first_k (save_all_models_k k envs s)
  | HReadWrite b => set_read_write s b
  | HInfo i => Ok (slot_kompare_info s i)
  | HClear => clear_k k s
  | HShow => show_k k s
  | HCompare => first_k (compare_k k o s)
  | HRefresh => refresh_k k s
  | HSwap => swap_k k s
  | HOpenDiff file => first_k (open_diff_k k o s file)
  | HParseAndOpen diff => first_k (parse_and_open_k k o s diff)
  | HOpenAndBlend => first_k (open_and_blend_k k o s)
  | HParseOutput diff => first_k (parse_diff_output_k k o s diff)
  | HBlendOriginal url => do r <- blend_original o s url; Ok (fst r)
  | HFinished success st out err => slot_diff_process_finished_k k o s success st out err
  | HModel m y => do _ <- model_of s m; Ok (put_model s m y)
  end.
(** A slot that itself calls the list: given the signal and the list, the calls it makes one after the other, each chosen by looking at
    the list as it then is ([None]: it leaves this one out); the signals of these calls are told to the same slots. [n] calls may be
    under way within each other. *)
Definition caller := signal -> mlist -> list (mlist -> option happening).
Fixpoint nested (calls : caller) (o : outside) (n : nat) : slots :=
  fun g s =>
    (fix go (cs : list (mlist -> option happening)) (s : mlist) : res mlist :=
       match cs with
       | [] => Ok s
       | c :: cs' =>
           match c s with
           | None => go cs' s
           | Some h =>
               match n with
               | O => OutOfFuel
               | S n' => do s <- occur_k (nested calls o n') o s h; go cs' s
               end
           end
       end) (calls g s) s.
