(** Model of everything that can happen to a ModelList, together with the files (Life.v, World.v). *)
From Coq Require Import String.
From Verif Require Import Base QtStr Diff Save Parser Blend Info ModelList Life World Rounds.
Local Open Scope Z_scope.

(** modellist.cpp 230-385: only the three ways of saving write files; what is read comes from the files as they are.
    (saveDiff() is in SaveDiff.v; others may write files at any time, see [life_on].) *)
Definition occur_on (o : outside) (s : mlist) (f : files) (h : happening) : res (mlist * files) :=
  match h with
  | HSaveSelected e => slot_save_on e s f
  | HSaveModel e m => do r <- save_model_on e s f m; Ok (fst r)
  | HSaveAll envs => do r <- save_all_on envs s f; Ok (fst r)
  | _ => do s <- occur (outside_on o f) s h; Ok (s, f)
  end.
Fixpoint life_on (s : mlist) (f : files) (l : list (outside * happening)) : res (mlist * files) :=
  match l with
  | [] => Ok (s, f)
  | (o, h) :: l' => do r <- occur_on o s f h; life_on (fst r) (snd r) l'
  end.
