(** Specification of diffs with Windows line ends. *)
From Coq Require Import String.
From Verif Require Import Base QtStr Diff Parser SpecPatch SpecParse SpecLines.
Local Open Scope Z_scope.

Definition CR : chr := 13%N.
(** [crlf l l']: [l] ends in a line feed, and [l'] is the same line with a carriage return before it. *)
Definition crlf (l l' : str) : Prop := exists t, one_line t /\ l = t ++ [NL] /\ l' = t ++ [CR; NL].
(** A line that lacks only one character to be the header of a file: nothing after the mark, or a TAB at the end of the name. *)
Definition unfinished (l : str) : Prop :=
  exists mark, (mark = lit "--- " \/ mark = lit "+++ ") /\ (l = mark ++ [NL] \/ exists q, ~ In TAB q /\ l = mark ++ q ++ [TAB; NL]).
(** What a difference and a hunk show: the same, but for the carriage return of every line; it also ends the function. *)
Definition crlf_difference (d d' : difference) : Prop :=
  d_type d' = d_type d /\ Forall2 crlf (lines_of (d_slines d)) (lines_of (d_slines d')) /\ Forall2 crlf (lines_of (d_dlines d)) (lines_of (d_dlines d')).
Definition crlf_hunk (p p' : hunk * list difference) : Prop :=
  h_src (fst p') = h_src (fst p) /\ h_dst (fst p') = h_dst (fst p) /\ h_function (fst p') = h_function (fst p) ++ [CR] /\
  contiguous (h_src (fst p)) (h_dst (fst p)) (snd p') /\ Forall2 crlf_difference (snd p) (snd p').
(** The name [s] and the time stamp [t] of a side become [s'] and [t']: a stamped name is the same, its stamp may end in the
    carriage return; a name without stamp was read from [p], and is now read from [p] with the carriage return. *)
Definition crlf_name (s t s' t' : str) : Prop :=
  (t <> [] /\ s' = s /\ (t' = t \/ t' = t ++ [CR])) \/ (t = [] /\ t' = [] /\ exists p, s = unescape_path p /\ s' = unescape_path (p ++ [CR])).
Definition crlf_file (m m' : dmodel) : Prop :=
  crlf_name (dm_source m) (dm_sts m) (dm_source m') (dm_sts m') /\
  crlf_name (dm_destination m) (dm_dts m) (dm_destination m') (dm_dts m') /\
  exists hs hs', contents m hs /\ contents m' hs' /\ Forall2 crlf_hunk hs hs'.
