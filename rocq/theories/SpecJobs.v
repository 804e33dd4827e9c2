(** Specification of the runs of diff. *)
From Coq Require Import String.
From Verif Require Import Base QtStr Settings Info ModelList SaveDiff SpecParse SpecText Jobs.
Local Open Scope Z_scope.

(** A call of the user, as opposed to something the process does. *)
Definition is_call (e : event) : bool := match e with Compare | Refresh | Swap | SaveDiff _ _ _ _ => true | _ => false end.
(** The user waits: no call while diff is running. *)
Fixpoint patient (other : str -> str -> str) (o : outside) (d : desk) (l : list event) : Prop :=
  match l with
  | [] => True
  | e :: l' => (is_call e = true -> busy d = false) /\ forall d', happen other o d e = Ok d' -> patient other o d' l'
  end.
(** A text that the parser can read (C27). *)
Definition readable (t : str) : Prop := exists ls lines, lines_of_text t ls /\ folded ls lines /\ safe lines.
(** Everything diff prints can be read, and saveDiff is given settings. *)
Definition sound (e : event) : Prop :=
  match e with
  | Finished _ _ out _ _ => readable out
  | SaveDiff _ _ _ st => st <> None
  | _ => True
  end.
(** The signals that tell of the start and of the end of a comparison. *)
Definition tells_start (g : signal) : bool := match g with Status RunningDiff => true | _ => false end.
Definition tells_end (g : signal) : bool :=
  match g with Status FinishedParsing => true | Error Identical => true | Error (ProcessError _) => true | _ => false end.
Definition how_many {A} (p : A -> bool) (l : list A) : nat := length (filter p l).
Definition comparing_now (d : desk) : nat := match dk_job d with Some (Comparison, _) => 1 | _ => 0 end.
