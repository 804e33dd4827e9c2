(** Specification of how a line tells the format of a diff. *)
From Coq Require Import String.
From Verif Require Import Base QtStr Parser.

Definition some_digits (w : str) : Prop := w <> [] /\ Forall (fun c => is_digit c = true) w.
(** Digits and commas, digits first: a line number or a range. *)
Definition numbers (w : str) : Prop := exists a b, w = a ++ b /\ some_digits a /\ Forall (fun c => is_digit c = true \/ c = 44%N) b.
(** A line number, or two of them with a comma between. *)
Definition range (w : str) : Prop := some_digits w \/ exists a b, w = a ++ lit "," ++ b /\ some_digits a /\ some_digits b.
Definition command (c : chr) : Prop := In c (lit "acd").
(** The line begins with the mark and a name up to a tab. *)
Definition named (mark : str) (l : str) : Prop := exists n rest, l = mark ++ n ++ TAB :: rest /\ n <> [] /\ ~ In TAB n.
Definition starts (mark : string) (l : str) : Prop := exists rest, l = lit mark ++ rest.
Definition looks (g : generator) (f : format) (l : str) : Prop :=
  match f with
  | Normal =>
      match g with
      | Perforce => exists a c b rest, l = a ++ [c] ++ b ++ rest /\ range a /\ command c /\ some_digits b
      | _ => exists a c b rest, l = a ++ [c] ++ b ++ rest /\ numbers a /\ command c /\ some_digits b
      end
  | Unified => match g with CVSDiff => named (lit "--- ") l | DiffDiff => starts "--- " l | Perforce => starts "@@" l end
  | Context => match g with CVSDiff => named (lit "*** ") l | DiffDiff => starts "*** " l | Perforce => starts "***************" l end
  | RCS => exists c a b rest, l = [c] ++ a ++ lit " " ++ b ++ rest /\ command c /\ some_digits a /\ some_digits b
  | Ed => g <> Perforce /\ exists a c rest, l = a ++ [c] ++ rest /\ numbers a /\ command c
  | UnknownFormat => False
  end.
(** A line that is good for a normal diff is not taken for one of an ed script. *)
Definition tells (g : generator) (f : format) (l : str) : Prop := looks g f l /\ (f = Ed -> ~ looks g Normal l).
