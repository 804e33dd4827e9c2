(** Specification of the texts that cannot be read: those on which parsing is undefined behaviour. *)
From Coq Require Import String.
From Verif Require Import Base QtStr Diff SpecInline SpecParse SpecLines.
From Verif Require SpecFormat Parser.
Local Open Scope Z_scope.

(** * Missing newlines, in any text *)
(** [cut l]: the line without its first newline and what follows; a line that has no newline is emptied. *)
Inductive cut : str -> str -> Prop :=
| cut_newline t x : ~ In NL t -> cut (t ++ NL :: x) t
| cut_none t : ~ In NL t -> cut t [].
(** Every marker line is dropped and the line before it is cut, once for each marker. *)
Inductive cuts : nat -> str -> str -> Prop :=
| ct_none t : cuts 0 t t
| ct_more n l t t' : cut l t -> cuts n t t' -> cuts (S n) l t'.
Inductive cleaned : list str -> list str -> Prop :=
| cl_end : cleaned [] []
| cl_line l ks ls t out : ~ no_newline_marker l -> Forall no_newline_marker ks -> (forall k ls', ls = k :: ls' -> ~ no_newline_marker k) ->
    cuts (length ks) l t -> cleaned ls out -> cleaned (l :: ks ++ ls) (t :: out).

(** * Character tables *)
(** The table for two lines has as many cells as 32 bits do not hold, and the number they do hold is small enough. *)
Definition wraps (a b : str) : Prop := (4294967296 <= area a b)%N /\ (area a b mod 4294967296 <= limit)%N.
(** As many old as new lines, and two of them at the same place have such a table. *)
Definition wrapping (old new : list str) : Prop :=
  length old = length new /\ exists i a b, nth_error old i = Some a /\ nth_error new i = Some b /\ wraps a b.

(** * Unified diffs *)
(** An empty line (not even a newline) where a line of a hunk could be, whether or not the counts ask for one; or changed lines
    with such a table; or one of these further down the hunk. *)
Inductive counted_crash : Z -> Z -> list str -> Prop :=
| cc_empty ca cb ls : counted_crash ca cb ([] :: ls)
| cc_wraps ca cb ls old c1 c2 ls1 new c3 c4 ls2 : run MINUS 1 0 ca cb ls old c1 c2 ls1 -> run PLUS 0 1 c1 c2 ls1 new c3 c4 ls2 ->
    wrapping old new -> counted_crash ca cb ls
| cc_common ca cb ls ts ca' cb' ls' : run SP 1 1 ca cb ls ts ca' cb' ls' -> ts <> [] -> counted_crash ca' cb' ls' -> counted_crash ca cb ls
| cc_changed ca cb ls old c1 c2 ls1 new c3 c4 ls2 : run MINUS 1 0 ca cb ls old c1 c2 ls1 -> run PLUS 0 1 c1 c2 ls1 new c3 c4 ls2 ->
    old <> [] \/ new <> [] -> counted_crash c3 c4 ls2 -> counted_crash ca cb ls.
Inductive patches_crash : list str -> Prop :=
| pc_here l a ca b cb f ls : range_line l (Some (a, ca)) (Some (b, cb)) f -> counted_crash ca cb ls -> patches_crash (l :: ls)
| pc_unreadable l r1 r2 f ls : range_line l r1 r2 f -> r1 = None \/ r2 = None -> patches_crash ls -> patches_crash (l :: ls)
| pc_later l a ca b cb f ls ds ls' : range_line l (Some (a, ca)) (Some (b, cb)) f -> counted ca cb ls ds ls' -> patches_crash ls' -> patches_crash (l :: ls).

(** * Context diffs *)
Inductive paired_crash : list cline -> list cline -> Prop :=
| dc_wraps os ns old new : next_mark old <> Some BANG -> next_mark new <> Some BANG -> wrapping os ns ->
    paired_crash (all_marked BANG os ++ old) (all_marked BANG ns ++ new)
| dc_removed ts old new : ts <> [] -> next_mark old <> Some MINUS -> paired_crash old new -> paired_crash (all_marked MINUS ts ++ old) new
| dc_added ts old new : ts <> [] -> next_mark old <> Some MINUS -> next_mark new <> Some PLUS -> paired_crash old new -> paired_crash old (all_marked PLUS ts ++ new)
| dc_common os ns old new :
    os <> [] \/ ns <> [] ->
    length os = length ns \/ ((length os < length ns)%nat /\ old = []) \/ ((length ns < length os)%nat /\ new = []) ->
    ~ (over_or_common old /\ over_or_common new /\ (old <> [] \/ new <> [])) ->
    paired_crash old new -> paired_crash (all_marked SP os ++ old) (all_marked SP ns ++ new)
| dc_changed os ns old new :
    os <> [] \/ ns <> [] -> next_mark old <> Some BANG -> next_mark new <> Some BANG ->
    (os = [] -> next_mark old <> Some MINUS) -> (ns = [] -> next_mark new <> Some PLUS) ->
    paired_crash old new -> paired_crash (all_marked BANG os ++ old) (all_marked BANG ns ++ new).
(** The text ends before the second range of a hunk; or changed lines with a table as above; or one of these later. *)
Inductive chunks_crash : list str -> Prop :=
| kc_end l f l2 a old : star_line l f -> old_range l2 a -> Forall cline_ok old -> chunks_crash (l :: l2 :: map cline_text old)
| kc_here l f l2 a old l3 b new ls :
    star_line l f -> old_range l2 a -> Forall cline_ok old -> new_range l3 b -> Forall cline_ok new -> no_cline ls ->
    paired_crash old new -> chunks_crash (l :: l2 :: map cline_text old ++ l3 :: map cline_text new ++ ls)
| kc_dropped l f l2 a old l3 ls :
    star_line l f -> old_range l2 a -> Forall cline_ok old -> no_cline (l3 :: ls) -> (forall b, ~ new_range l3 b) ->
    chunks_crash (l3 :: ls) -> chunks_crash (l :: l2 :: map cline_text old ++ l3 :: ls)
| kc_later l f l2 a old l3 b new ls :
    star_line l f -> old_range l2 a -> Forall cline_ok old -> new_range l3 b -> Forall cline_ok new -> no_cline ls ->
    chunks_crash ls -> chunks_crash (l :: l2 :: map cline_text old ++ l3 :: map cline_text new ++ ls).

(** * Files *)
(** [alone l]: a first header line that needs a second one. *)
Inductive files_crash (starts alone : str -> Prop) (heading : list str -> Diff.dmodel -> Prop)
    (hunks : list str -> list (Diff.hunk * list Diff.difference) -> list str -> Prop) (crash : list str -> Prop) : list str -> Prop :=
| fc_alone skip l : Forall (fun l => ~ starts l) skip -> starts l -> alone l -> files_crash starts alone heading hunks crash (skip ++ [l])
| fc_here skip hd m body : Forall (fun l => ~ starts l) skip -> heading hd m -> crash body -> files_crash starts alone heading hunks crash (skip ++ hd ++ body)
| fc_later skip hd m body hs ls : Forall (fun l => ~ starts l) skip -> heading hd m -> hunks body hs ls ->
    files_crash starts alone heading hunks crash ls -> files_crash starts alone heading hunks crash (skip ++ hd ++ body).
Definition always (l : str) : Prop := True.
Definition never (l : str) : Prop := False.
Definition unified_crash (g : Parser.generator) : list str -> Prop :=
  match g with
  | Parser.Perforce => files_crash perforce_start never perforce_heading patches patches_crash
  | _ => files_crash unified_start always unified_heading patches patches_crash
  end.
Definition context_crash (g : Parser.generator) : list str -> Prop :=
  match g with
  | Parser.Perforce => files_crash perforce_start never perforce_heading chunks chunks_crash
  | Parser.CVSDiff => files_crash cvs_start always cvs_heading chunks chunks_crash
  | Parser.DiffDiff => files_crash context_start always context_heading chunks chunks_crash
  end.

(** * Texts *)
(** The program that a text comes from, as its first tell-tale line says (C14); the format that its first telling line tells (C65). *)
Definition from (ls : list str) (g : Parser.generator) : Prop :=
  let index l := exists x, l = lit "Index: " ++ x in
  let equals l := exists x, l = lit "==== " ++ x in
  match g with
  | Parser.CVSDiff => exists pre l post, ls = pre ++ l :: post /\ index l /\ Forall (fun x => ~ equals x) pre
  | Parser.Perforce => exists pre l post, ls = pre ++ l :: post /\ equals l /\ Forall (fun x => ~ index x) pre
  | Parser.DiffDiff => Forall (fun x => ~ index x /\ ~ equals x) ls
  end.
Definition told (g : Parser.generator) (ls : list str) (f : Parser.format) : Prop :=
  exists before l after, ls = before ++ l :: after /\ SpecFormat.tells g f l /\ forall l' f', In l' before -> ~ SpecFormat.tells g f' l'.
Definition unreadable (ls : list str) : Prop :=
  (exists k ls', ls = k :: ls' /\ no_newline_marker k) \/
  exists g out, from ls g /\ cleaned ls out /\
    ((told g out Parser.Unified /\ unified_crash g out) \/ (told g out Parser.Context /\ context_crash g out)).
