(** Specification of working with two files again and again. *)
From Coq Require Import String.
From Verif Require Import Base QtStr Save SpecText SpecPatch SpecUnified SpecWorkflow Info ModelList SpecList World SpecWorld Rounds.
Local Open Scope Z_scope.

(** [rounds src dst rw w f rs f' w']: what the rounds rs do to the disk f and to what the list shows (w, [None]: nothing).
    In each round diff is right about the two files as they are: it prints hunks that turn one into the other, or finds them the
    same. Afterwards the destination of the round is its source with the changes worked in that were not applied at the last
    save, and no other file has changed. *)
Inductive rounds : str -> str -> bool -> option view -> files -> list round -> files -> option view -> Prop :=
| rs_end src dst rw w f : rounds src dst rw w f [] f w
| rs_diff src dst a b rw w f sw d p A B ops v f1 rs f' w' :
    (a, b) = (if sw : bool then (dst, src) else (src, dst)) ->
    lines_of_text (text_at f a) A -> lines_of_text (text_at f b) B -> doc_ok d -> ud_files d = [p] -> patches true 1 1 A B (up_hunks p) ->
    (forall e, In (LSave e) ops -> se_dirs e = false) -> (forall es k, In (LSaveAll es) ops -> se_dirs (es k) = false) ->
    vrun (opened_files [p] rw) ops = Some v ->
    mixture A (up_hunks p) (saved_of v 0) (text_at f1 b) -> (forall u, u <> b -> text_at f1 u = text_at f u) ->
    rounds a b (v_rw v) (Some v) f1 rs f' w' ->
    rounds src dst rw w f (mk_round sw (Some d) ops :: rs) f' w'
| rs_same src dst a b rw w f sw ops rs f' w' :
    (a, b) = (if sw : bool then (dst, src) else (src, dst)) ->
    text_at f a = text_at f b -> rounds a b rw None f rs f' w' ->
    rounds src dst rw w f (mk_round sw None ops :: rs) f' w'.
(** Two files on disk, being compared. *)
Record compares (i : info) (src dst : str) : Prop := {
  cm_mode : in_mode i = ComparingFiles;
  cm_source : in_source i = src; cm_local_source : in_local_source i = src;
  cm_destination : in_destination i = dst; cm_local_destination : in_local_destination i = dst }.
