(** Model of everything that can happen to a ModelList (modellist.h 38-142): the calls of its user with any arguments, the end of
    the process, and what the holder of a model does with it. *)
From Coq Require Import String.
From Verif Require Import Base QtStr Diff Save Parser Blend Info ModelList.
Local Open Scope Z_scope.

Inductive happening :=
| HNextDifference | HPreviousDifference | HNextModel | HPreviousModel                 (* modellist.h 124-127 *)
| HSelect (m : option nat) (d : option dref) | HSelectDifference (d : option dref)    (* 119-120, with any pointers *)
| HApply (b : bool) | HApplyAll (b : bool)                                            (* 122-123 *)
| HActApply | HActUnapply | HActApplyAll (b : bool)                                   (* 135-138 *)
| HSaveSelected (e : save_env) | HSaveModel (e : save_env) (m : nat) | HSaveAll (envs : nat -> save_env) (* 142, 60, 58 *)
| HReadWrite (b : bool) | HInfo (i : info) | HClear | HShow                           (* 64, 129, 103, 76 *)
| HCompare | HRefresh | HSwap                                                         (* 48, 43, 45 *)
| HOpenDiff (file : str) | HParseAndOpen (diff : str) | HOpenAndBlend                 (* 52, 73, 54-55 *)
| HParseOutput (diff : str) | HBlendOriginal (url : str)                              (* 70, 80 *)
| HFinished (success : bool) (st : exit_status) (out err : str)                       (* 132 *)
| HModel (m : nat) (y : dmodel).       (* any change of a living model by a call of one of its own functions *)
Definition occur (o : outside) (s : mlist) (h : happening) : res mlist :=
  match h with
  | HNextDifference => slot_next_difference s
  | HPreviousDifference => slot_previous_difference s
  | HNextModel => slot_next_model s
  | HPreviousModel => slot_previous_model s
  | HSelect m d => slot_selection_changed s m d
  | HSelectDifference d => slot_difference_changed s d
  | HApply b => slot_apply_difference s b
  | HApplyAll b => slot_apply_all s b
  | HActApply => slot_action_apply s
  | HActUnapply => slot_action_unapply s
  | HActApplyAll b => slot_action_apply_all s b
  | HSaveSelected e => slot_save e s
  | HSaveModel e m => do r <- save_model e s m; Ok (fst r)
  | HSaveAll envs => do r <- save_all_models envs s; Ok (fst r)
  | HReadWrite b => set_read_write s b
  | HInfo i => Ok (slot_kompare_info s i)
  | HClear => Ok (clear s)
  | HShow => show s
  | HCompare => do r <- compare o s; Ok (fst r)
  | HRefresh => refresh s
  | HSwap => swap s
  | HOpenDiff file => do r <- open_diff o s file; Ok (fst r)
  | HParseAndOpen diff => do r <- parse_and_open o s diff; Ok (fst r)
  | HOpenAndBlend => do r <- open_and_blend o s; Ok (fst r)
  | HParseOutput diff => do r <- parse_diff_output o s diff; Ok (fst r)
  | HBlendOriginal url => do r <- blend_original o s url; Ok (fst r)
  | HFinished success st out err => slot_diff_process_finished o s success st out err
  | HModel m y => do _ <- model_of s m; Ok (put_model s m y)
  end.
(** The outside may change from one happening to the next. *)
Fixpoint life (s : mlist) (l : list (outside * happening)) : res mlist :=
  match l with
  | [] => Ok s
  | (o, h) :: l' => do s <- occur o s h; life s l'
  end.
