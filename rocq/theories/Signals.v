(** Model of what a slot finds that is connected to a signal of a ModelList: the functions of ModelList.v and Life.v once more, with the
    state of the list at each Q_EMIT. Connections are direct (the list and its receivers live in one thread), so that a slot runs
    inside the Q_EMIT and every question it asks is answered by the list as it is then. *)
From Coq Require Import String.
From Verif Require Import Base QtStr Diff Save Parser Blend Info ModelList Life.
Local Open Scope Z_scope.

(** A signal and the list during its emission; a computation with the signals it emits. *)
Definition moment := (signal * mlist)%type.
Definition telling (A : Type) := res (A * list moment).
Definition tell (g : signal) (s : mlist) : telling mlist := Ok (emit g s, [(g, emit g s)]).
Definition mutely {A} (r : res A) : telling A := do a <- r; Ok (a, []).
Definition after {A B} (w : telling A) (f : A -> telling B) : telling B :=
  do r <- w; do q <- f (fst r); Ok (fst q, snd r ++ snd q).
Notation "'on' x <- w ; f" := (after w (fun x => f)) (at level 200, x name, w at level 100, f at level 200).

(** modellist.cpp 621-626 (and wherever setStatusBarModelInfo is emitted by a slot). *)
Definition status_bar_at (s : mlist) : telling mlist :=
  do i <- find_model s (ml_sel s);
  do r <- selected s;
  let '(m, x) := r in
  do n <- difference_count s;
  tell (SetStatusBar i (index_of_diff m x (ml_diff s)) (model_count s) n (dm_applied x)) s.
(** 641-647 and 697-703: the selection, the status bar, then updateModelListActions(). *)
Definition announce_at (s : mlist) : telling mlist :=
  on s <- tell (SetSelection (ml_sel s) (ml_diff s)) s;
  on s <- status_bar_at s;
  mutely (update_actions s).
Definition announce_difference_at (s : mlist) : telling mlist :=
  on s <- tell (SetSelectionOf (ml_diff s)) s;
  on s <- status_bar_at s;
  mutely (update_actions s).
(** 566-602. *)
Definition slot_selection_changed_at (s : mlist) (m : option nat) (d : option dref) : telling mlist :=
  let s := with_sel s m in
  do l <- the_list s;
  let s := with_diff (with_index s (index_in m l)) d in
  match m with
  | None => UB "null DiffModel pointer"
  | Some m' =>
      do r <- select_in s m' d;
      do r <- set_selected_model (fst r) (ml_sel (fst r));
      let '(s, ok) := r in
      do s <- (if ok then
                 match ml_sel s with
                 | None => UB "null DiffModel pointer"
                 | Some m' =>
                     do r <- select_in s m' (ml_diff s);
                     let '(s, ok) := r in
                     if ok then Ok s else to_first_difference s
                 end
               else do s <- first_model s; to_first_difference s);
      on s <- tell (SetSelection m d) s;
      on s <- status_bar_at s;
      mutely (update_actions s)
  end.
(** 604-628. *)
Definition slot_difference_changed_at (s : mlist) (d : option dref) : telling mlist :=
  let s := with_diff s d in
  match ml_sel s with
  | None => UB "null DiffModel pointer"
  | Some m =>
      do r <- select_in s m d;
      let '(s, ok) := r in
      do s <- (if ok then Ok s else to_first_difference s);
      on s <- tell (SetSelectionOf d) s;
      on s <- status_bar_at s;
      mutely (update_actions s)
  end.
(** 630-648, 650-668. *)
Definition slot_previous_model_at (s : mlist) : telling mlist :=
  do s <- prev_model s;
  do s <- (match ml_sel s with Some _ => Ok s | None => first_model s end);
  do s <- to_first_difference s;
  announce_at s.
Definition slot_next_model_at (s : mlist) : telling mlist :=
  do s <- next_model s;
  do s <- (match ml_sel s with Some _ => Ok s | None => last_model s end);
  do s <- to_first_difference s;
  announce_at s.
(** 691-735, 737-781. *)
Definition slot_previous_difference_at (s : mlist) : telling mlist :=
  do r <- selected s;
  let '(m, x) := r in
  do r <- prev_difference x;
  let '(x, k) := r in
  let s := put_model s m x in
  match k with
  | Some k => announce_difference_at (with_diff s (Some (m, k)))
  | None =>
      do s <- prev_model (with_diff s None);
      match ml_sel s with
      | Some _ => do s <- to_last_difference s; announce_at s
      | None => do s <- first_model s; do s <- to_first_difference s; announce_at s
      end
  end.
Definition slot_next_difference_at (s : mlist) : telling mlist :=
  do r <- selected s;
  let '(m, x) := r in
  do r <- next_difference x;
  let '(x, k) := r in
  let s := put_model s m x in
  match k with
  | Some k => announce_difference_at (with_diff s (Some (m, k)))
  | None =>
      do s <- next_model (with_diff s None);
      match ml_sel s with
      | Some _ => do s <- to_first_difference s; announce_at s
      | None => do s <- last_model s; do s <- to_last_difference s; announce_at s
      end
  end.
(** 783-789, 791-797: the differences are changed, then the signal is emitted. *)
Definition slot_apply_difference_at (s : mlist) (b : bool) : telling mlist :=
  do r <- selected s;
  let '(m, x) := r in
  do x <- apply_difference x b;
  tell (Applied b) (put_model s m x).
Definition slot_apply_all_at (s : mlist) (b : bool) : telling mlist :=
  do r <- selected s;
  let '(m, x) := r in
  do x <- apply_all x b;
  tell (AppliedAll b) (put_model s m x).
(** 1008-1042. *)
Definition slot_action_apply_at (s : mlist) : telling mlist :=
  do d <- difference_of s (ml_diff s);
  on s <- (if d_applied d then mutely (Ok s) else slot_apply_difference_at s true);
  on s <- slot_next_difference_at s;
  mutely (update_actions s).
Definition slot_action_unapply_at (s : mlist) : telling mlist :=
  do d <- difference_of s (ml_diff s);
  on s <- (if d_applied d then slot_apply_difference_at s false else mutely (Ok s));
  on s <- slot_previous_difference_at s;
  mutely (update_actions s).
Definition slot_action_apply_all_at (s : mlist) (b : bool) : telling mlist :=
  on s <- slot_apply_all_at s b; mutely (update_actions s).
(** 243-370 saveDestination: no error is emitted after the unsaved flags have been cleared (361-366), and a save with an
    error clears none, so that the model is then as it is afterwards; 230-241 slotSaveDestination. *)
Definition save_model_at (e : save_env) (s : mlist) (m : nat) : telling (mlist * bool) :=
  do x <- model_of s m;
  do o <- save_destination e x;
  let s := put_model s m (so_model o) in
  on s <- (if so_error o then tell (Error SaveProblem) s else mutely (Ok s));
  mutely (Ok (s, so_ret o)).
Definition slot_save_at (e : save_env) (s : mlist) : telling mlist :=
  match ml_sel s with
  | None => mutely (Ok s)
  | Some m =>
      on r <- save_model_at e s m;
      let '(s, _) := r in
      let a := ml_act s in
      let s := if ml_has_save s
               then with_act s (mk_actions (ac_apply a) (ac_unapply a) (ac_apply_all a) (ac_unapply_all a) false
                                  (ac_previous_file a) (ac_next_file a) (ac_previous a) (ac_next a))
               else s in
      tell UpdateActions s
  end.
(** 372-385 saveAll. *)
Fixpoint save_models_at (envs : nat -> save_env) (k : nat) (s : mlist) (l : list nat) : telling (mlist * bool) :=
  match l with
  | [] => mutely (Ok (s, true))
  | m :: l' =>
      on r <- save_model_at (envs k) s m;
      let '(s, ok) := r in
      if ok : bool then save_models_at envs (S k) s l' else mutely (Ok (s, false))
  end.
Definition save_all_models_at (envs : nat -> save_env) (s : mlist) : telling (mlist * bool) :=
  if Z.eqb (model_count s) 0 then mutely (Ok (s, false)) else do l <- the_list s; save_models_at envs 0 s l.
(** 938-946 clear: the models go, then the signal is emitted; the selection stays. *)
Definition clear_at (s : mlist) : telling mlist :=
  let s := match ml_models s with Some _ => with_models s (ml_heap s) (Some []) | None => s end in
  tell (ModelsChanged (ml_models s)) s.
(** 799-834 parseDiffOutput: diffString before anything is read; the complaint (820) when the new list is there and the
    selection is the old one; the status bar (826) after the first difference has been selected. *)
Definition parse_diff_output_at (o : outside) (s : mlist) (diff : str) : telling (mlist * bool) :=
  on s <- tell (DiffString diff) s;
  do p <- parse (os_sort o) (split_lines diff);
  let h := match ml_models s with Some l => delete_all l (ml_heap s) | None => ml_heap s end in
  let s := match po_models p with
           | Some ms => with_models s (h ++ map Some ms) (Some (seq (length h) (length ms)))
           | None => with_models s h None
           end in
  do i <- the_info s;
  let s := with_info s (Some (with_parsed i (po_generator p) (po_format p))) in
  match ml_models s with
  | None => mutely (Ok (s, false))
  | Some _ =>
      on s <- (if po_malformed p then tell (Error Malformed) s else mutely (Ok s));
      do s <- first_model s;
      do s <- to_first_difference s;
      do n <- difference_count s;
      on s <- tell (SetStatusBar 0 0 (model_count s) n 0) s;
      mutely (Ok (s, true))
  end.
(** 880-887 show. *)
Definition show_at (s : mlist) : telling mlist :=
  do l <- the_list s;
  on s <- tell (ModelsChanged (Some l)) s;
  tell (SetSelection (ml_sel s) (ml_diff s)) s.
(** 449-475, 477-495. *)
Definition parse_and_open_at (o : outside) (s : mlist) (diff : str) : telling (mlist * bool) :=
  on s <- clear_at s;
  on s <- tell (Status Parsing) s;
  on r <- parse_diff_output_at o s diff;
  let '(s, ok) := r in
  if ok : bool then
    do s <- update_actions s;
    on s <- show_at s;
    on s <- tell (Status FinishedParsing) s;
    mutely (Ok (s, true))
  else on s <- tell (Error NotParsed) s; mutely (Ok (s, false)).
Definition open_diff_at (o : outside) (s : mlist) (file : str) : telling (mlist * bool) :=
  match file with [] => mutely (Ok (s, false)) | _ => parse_and_open_at o s (os_read o file) end.
(** 176-200, 202-228. *)
Definition open_and_blend_at (o : outside) (s : mlist) : telling (mlist * bool) :=
  on s <- clear_at s;
  do i <- the_info s;
  on r <- parse_diff_output_at o s (os_read o (in_local_destination i));
  let '(s, ok) := r in
  if negb ok then on s <- tell (Error NoModels) s; mutely (Ok (s, false))
  else
    do i <- the_info s;
    do l <- the_list s;
    do s <- depth_and_applied i s l;
    do r <- blend_original o s (in_local_source i);
    let '(s, ok) := r in
    if negb ok then on s <- tell (Error NotApplied) s; mutely (Ok (s, false))
    else
      do s <- update_actions s;
      on s <- show_at s;
      mutely (Ok (s, true)).
(** 159-174 compare(mode). *)
Definition compare_mode_at (s : mlist) : telling mlist :=
  on s <- clear_at s; tell (Status RunningDiff) (with_process s true).
(** 100-157 compare. *)
Definition compare_at (o : outside) (s : mlist) : telling (mlist * bool) :=
  do i <- the_info s;
  let sd := os_is_dir o (in_local_source i) in
  let dd := os_is_dir o (in_local_destination i) in
  if (sd && dd)%bool then on s <- compare_mode_at (with_info s (Some (with_mode i ComparingDirs))); mutely (Ok (s, true))
  else if (negb sd && negb dd)%bool then
    let sp := os_is_diff o (in_local_source i) in
    let dp := os_is_diff o (in_local_destination i) in
    if (negb sp && dp)%bool then open_and_blend_at o (with_info s (Some (with_mode i BlendingFile)))
    else if (sp && negb dp)%bool then
      open_and_blend_at o (with_info s (Some (swap_source_with_destination (with_mode i BlendingFile))))
    else on s <- compare_mode_at (with_info s (Some (with_mode i ComparingFiles))); mutely (Ok (s, true))
  else if (sd && negb dd)%bool then open_and_blend_at o (with_info s (Some (with_mode i BlendingDir)))
  else open_and_blend_at o (with_info s (Some (swap_source_with_destination (with_mode i BlendingDir)))).
(** 422-447 slotDiffProcessFinished. *)
Definition slot_diff_process_finished_at (o : outside) (s : mlist) (success : bool) (st : exit_status) (out err : str) : telling mlist :=
  if negb (ml_process s) then UB "null KompareProcess pointer"
  else
    on s <- (if success then
               on s <- tell (Status Parsing) s;
               on r <- parse_diff_output_at o s out;
               let '(s, ok) := r in
               on s <- (if negb ok then tell (Error NotParsed) s
                        else
                          do i <- the_info s;
                          do s <- (if mode_eqb (in_mode i) ShowingDiff then Ok s
                                   else do r <- blend_original o s (in_local_source i); Ok (fst r));
                          do s <- update_actions s;
                          show_at s);
               tell (Status FinishedParsing) s
             else match st with
                  | NormalExit => tell (Error Identical) s
                  | CrashExit => tell (Error (ProcessError err)) s
                  end);
    mutely (Ok (with_process s false)).
(** 948-965 refresh, swap. *)
Definition refresh_at (s : mlist) : telling mlist := do _ <- the_info s; compare_mode_at s.
Definition swap_at (s : mlist) : telling mlist :=
  do i <- the_info s;
  match in_mode i with
  | ComparingFiles | ComparingDirs => compare_mode_at s
  | _ => mutely (Ok s)
  end.

(** Everything that can happen (Life.v). *)
Definition first_of (w : telling (mlist * bool)) : telling mlist := on r <- w; mutely (Ok (fst r)).
Definition occur_at (o : outside) (s : mlist) (h : happening) : telling mlist :=
  match h with
  | HNextDifference => slot_next_difference_at s
  | HPreviousDifference => slot_previous_difference_at s
  | HNextModel => slot_next_model_at s
  | HPreviousModel => slot_previous_model_at s
  | HSelect m d => slot_selection_changed_at s m d
  | HSelectDifference d => slot_difference_changed_at s d
  | HApply b => slot_apply_difference_at s b
  | HApplyAll b => slot_apply_all_at s b
  | HActApply => slot_action_apply_at s
  | HActUnapply => slot_action_unapply_at s
  | HActApplyAll b => slot_action_apply_all_at s b
  | HSaveSelected e => slot_save_at e s
  | HSaveModel e m => first_of (save_model_at e s m)
  | HSaveAll envs => first_of (save_all_models_at envs s)
  | HReadWrite b => mutely (set_read_write s b)
  | HInfo i => mutely (Ok (slot_kompare_info s i))
  | HClear => clear_at s
  | HShow => show_at s
  | HCompare => first_of (compare_at o s)
  | HRefresh => refresh_at s
  | HSwap => swap_at s
  | HOpenDiff file => first_of (open_diff_at o s file)
  | HParseAndOpen diff => first_of (parse_and_open_at o s diff)
  | HOpenAndBlend => first_of (open_and_blend_at o s)
  | HParseOutput diff => first_of (parse_diff_output_at o s diff)
  | HBlendOriginal url => mutely (do r <- blend_original o s url; Ok (fst r))
  | HFinished success st out err => slot_diff_process_finished_at o s success st out err
  | HModel m y => mutely (do _ <- model_of s m; Ok (put_model s m y))
  end.
