(** Specification of what somebody knows of a ModelList who only listens to its signals. *)
From Verif Require Import Base Diff ModelList Life.

(** The last list that modelsChanged() gave, and the last model and difference that setSelection() gave. *)
Record picture := mk_picture { pc_models : option (list nat); pc_model : option nat; pc_difference : option dref }.
Definition hear (p : picture) (g : signal) : picture :=
  match g with
  | ModelsChanged l => mk_picture l (pc_model p) (pc_difference p)
  | SetSelection m d => mk_picture (pc_models p) m d
  | SetSelectionOf d => mk_picture (pc_models p) (pc_model p) d
  | _ => p
  end.
Definition heard (s : mlist) : picture := fold_left hear (ml_out s) (mk_picture None None None).
(** He knows what models(), selectedModel() and selectedDifference() give. *)
Definition told (s : mlist) : Prop := heard s = mk_picture (ml_models s) (ml_sel s) (ml_diff s).

(** The difference is one of the model, and the model is there. *)
Definition difference_of_model (s : mlist) (m : option nat) (d : option dref) : Prop :=
  exists m' k x, m = Some m' /\ d = Some (m', k) /\ model_of s m' = Ok x /\ In k (dm_diffs x).
(** An opening: a new list is there and shown, or there was none before and there is none now. *)
Definition opened_or_none (s : mlist) (r : res (mlist * bool)) : Prop :=
  match r with
  | Ok (s', b) => b = true \/ (ml_models s = None /\ ml_models s' = None)
  | _ => False
  end.
(** What happened was told: a selection is the difference that was asked for; an opening went well, or there is no list as before; the output of diff could
    be read, or the same; what parseDiffOutput() and blendOriginalIntoModelList(), called on their own, do to the list and the selection is nothing. *)
Definition announced (o : outside) (s : mlist) (h : happening) (s' : mlist) : Prop :=
  match h with
  | HSelect _ d | HSelectDifference d => ml_diff s' = d
  | HOpenDiff [] => True
  | HOpenDiff file => opened_or_none s (open_diff o s file)
  | HParseAndOpen diff => opened_or_none s (parse_and_open o s diff)
  | HOpenAndBlend => opened_or_none s (open_and_blend o s)
  | HCompare => opened_or_none s (compare o s)
  | HFinished true _ _ _ => ml_models s' <> None \/ ml_models s = None
  | HParseOutput _ => ml_models s = None /\ ml_models s' = None
  | HBlendOriginal _ => ml_sel s' = ml_sel s /\ ml_diff s' = ml_diff s
  | _ => True
  end.
Fixpoint announced_life (s : mlist) (hs : list (outside * happening)) : Prop :=
  match hs with
  | [] => True
  | (o, h) :: hs' => forall s1, occur o s h = Ok s1 -> announced o s h s1 /\ announced_life s1 hs'
  end.
