(** Specification of slots that call the list back: what they have to leave, and what the call that told them then does. *)
From Coq Require Import String.
From Verif Require Import Base QtStr Diff Parser Info ModelList Life Reentrant SpecList SpecSignals.
Local Open Scope Z_scope.

(** The outcome is not undefined, and if the calls within each other come to an end, the list is as [P] says. *)
Definition goes_well (P : mlist -> Prop) (r : res mlist) : Prop :=
  match r with Ok s' => P s' | UB _ => False | OutOfFuel => True end.
(** The list shows something, knows its Info, and has, if [L] says so, the models it had. *)
Definition in_order_for (L : option (list nat)) (s : mlist) : Prop :=
  (exists v, shows s v) /\ ml_info s <> None /\ match L with Some l => ml_models s = Some l | None => True end.
(** Slots that leave such a list when they find one and what they are told is true of it (SpecSignals.v). *)
Definition gentle (L : option (list nat)) (k : slots) : Prop :=
  forall g s, in_order_for L s -> truthful g s -> goes_well (in_order_for L) (k g s).
(** The signals during which there is nothing to call: a text is being read, and the list is empty or the selection is the old one. *)
Definition early (g : signal) : bool :=
  match g with
  | Status Parsing | DiffString _ | Error Malformed | ModelsChanged None | ModelsChanged (Some []) => true
  | _ => false
  end.
Definition patient (k : slots) : Prop := forall g s, early g = true -> k g s = Ok s.
(** Slots that do nothing. *)
Definition silent : slots := fun _ s => Ok s.
(** The actions fit what is shown. *)
Definition up_to_date (s : mlist) : Prop := exists v, shows s v /\ actions_right s v.
(** A text that can be read, with something in it. *)
Definition readable (o : outside) (t : str) : Prop := exists p ms, parse (os_sort o) (split_lines t) = Ok p /\ po_models p = Some ms.
(** What a slot may call: moves, applies, saves, setReadWrite, with the numbers of a model and a difference that are there; where the
    list may be replaced ([L] is [None]) also opening a text that can be read, but not saveAll(), which goes through the list. *)
Definition saves_all (op : lop) : Prop := match op with LSaveAll _ => True | _ => False end.
Definition opening (o : outside) (s : mlist) (h : happening) : Prop :=
  match h with
  | HParseAndOpen t => readable o t
  | HOpenDiff [] => True
  | HOpenDiff file => readable o (os_read o file)
  | HOpenAndBlend => exists i, ml_info s = Some i /\ readable o (os_read o (in_local_destination i))
  | _ => False
  end.
Definition may_call (o : outside) (L : option (list nat)) (s : mlist) (h : happening) : Prop :=
  (exists op, call_of s op = Ok h /\ (saves_all op -> L <> None)) \/ (L = None /\ opening o s h).
Definition well_behaved (o : outside) (L : option (list nat)) (calls : caller) : Prop :=
  (forall g s c, in_order_for L s -> truthful g s -> In c (calls g s) -> forall s' h, in_order_for L s' -> c s' = Some h -> may_call o L s' h) /\
  (L = None -> forall g s, early g = true -> calls g s = []).
