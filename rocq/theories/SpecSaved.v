(** Specification of what saving writes when the diff is in another format than unified. *)
From Verif Require Import Base Diff SpecPatch SpecParse SpecUnified SpecNormal SpecContext SpecBlend SpecWorkflow.
Local Open Scope Z_scope.

(** * Any diff, any file *)
(** [laid s fs lines hs R]: from the hunks and the lines of a file (numbered from s) the lines R are put together. Before each
    hunk come the lines of the file up to the number of the hunk, as far as there are any; then the lines of the hunk, of each
    change the old ones if it is applied ([fs]) and else the new ones; as many lines of the file as the hunk has old lines are
    passed over, whatever they are. In the end come the lines that are left. *)
Definition changes_of (ds : list difference) : nat := length (filter (fun d => negb (is_context d)) ds).
Inductive laid : Z -> list bool -> list str -> list filled -> list str -> Prop :=
| la_end s lines : laid s [] lines [] lines
| la_hunk s gap passed lines h ds hs f1 f2 R :
    s + count gap = h_src h \/ (h_src h <= s /\ gap = []) \/ (s + count gap < h_src h /\ passed = [] /\ lines = []) ->
    length passed = length (SpecBlend.old_lines ds) \/ (length passed < length (SpecBlend.old_lines ds) /\ lines = [])%nat ->
    length f1 = changes_of ds ->
    laid (s + count gap + count (SpecBlend.old_lines ds)) f2 lines hs R ->
    laid s (f1 ++ f2) (gap ++ passed ++ lines) ((h, ds) :: hs) (gap ++ choose f1 ds ++ R).

(** * Context diffs *)
Definition ended (ls : list str) : list str := map (fun t => t ++ [NL]) ls.
(** The printed hunks turn A (numbered from s) into B (numbered from t); there is a common line between any two. The lines of a
    hunk are printed without their newline, those of the files have it. *)
Inductive cpatches : bool -> Z -> Z -> list str -> list str -> list chunk -> Prop :=
| cp_end f s t same : cpatches f s t same same []
| cp_hunk f s t same A B h hs :
    (f = false -> same <> []) -> ch_a h = s + count same -> ch_b h = t + count same ->
    cpatches false (ch_a h + src_count (ch_segs h)) (ch_b h + dst_count (ch_segs h)) A B hs ->
    cpatches f s t (same ++ ended (concat (map src_lines (ch_segs h))) ++ A) (same ++ ended (concat (map dst_lines (ch_segs h))) ++ B) (h :: hs).
Definition cchanges (hs : list chunk) : nat := length (filter is_change (concat (map ch_segs hs))).
(** [cmixed w s old A hs R]: R is A (numbered from s) with the hunks worked in, but for the changes that [old] keeps out; the
    lines of the hunks as [w] makes them: [ended] gives the mixture that is wanted, the identity the one that is written. *)
Inductive cmixed (w : list str -> list str) : Z -> list bool -> list str -> list chunk -> list str -> Prop :=
| cm_end s same : cmixed w s [] same [] same
| cm_hunk s same A h hs f1 f2 R :
    ch_a h = s + count same -> length f1 = length (filter is_change (ch_segs h)) ->
    cmixed w (ch_a h + src_count (ch_segs h)) f2 A hs R ->
    cmixed w s (f1 ++ f2) (same ++ ended (concat (map src_lines (ch_segs h))) ++ A) (h :: hs) (same ++ w (pick f1 (ch_segs h)) ++ R).

(** * Normal diffs *)
(** The commands turn A into B. Lines are added after line n; of removed lines the number in the new file is that of the line
    before. *)
Inductive ncommands : bool -> Z -> Z -> list str -> list str -> list ncmd -> Prop :=
| nc_end f s t same : ncommands f s t same same []
| nc_cmd f s t same A B c cs :
    (f = false -> same <> []) ->
    old_number c = (match c with NAdd _ _ _ => s + count same - 1 | _ => s + count same end) ->
    new_number c = (match c with NDel _ _ _ => t + count same - 1 | _ => t + count same end) ->
    ncommands false (s + count same + count (SpecNormal.old_lines c)) (t + count same + count (SpecNormal.new_lines c)) A B cs ->
    ncommands f s t (same ++ ended (SpecNormal.old_lines c) ++ A) (same ++ ended (SpecNormal.new_lines c) ++ B) (c :: cs).
(** The mixture that is wanted. *)
Inductive nmixed : Z -> list bool -> list str -> list ncmd -> list str -> Prop :=
| nm_end s same : nmixed s [] same [] same
| nm_cmd s same A c cs (f : bool) fs R :
    old_number c = (match c with NAdd _ _ _ => s + count same - 1 | _ => s + count same end) ->
    nmixed (s + count same + count (SpecNormal.old_lines c)) fs A cs R ->
    nmixed s (f :: fs) (same ++ ended (SpecNormal.old_lines c) ++ A) (c :: cs) (same ++ ended (if f then SpecNormal.old_lines c else SpecNormal.new_lines c) ++ R).
(** The mixture that is written: without the newlines, and lines added after line n come before it (unless n is 0). *)
Inductive nwritten : Z -> list bool -> list str -> list ncmd -> list str -> Prop :=
| nw_end s same : nwritten s [] same [] same
| nw_cmd s same A c cs (f : bool) fs R :
    cmd_type c <> Insert -> old_number c = s + count same ->
    nwritten (s + count same + count (SpecNormal.old_lines c)) fs A cs R ->
    nwritten s (f :: fs) (same ++ ended (SpecNormal.old_lines c) ++ A) (c :: cs) (same ++ (if f then SpecNormal.old_lines c else SpecNormal.new_lines c) ++ R)
| nw_add s same A n m a cs (f : bool) fs R :
    n = s + count same \/ (n = 0 /\ s = 1 /\ same = []) ->
    nwritten (s + count same) fs A cs R ->
    nwritten s (f :: fs) (same ++ A) (NAdd n m a :: cs) (same ++ (if f then [] else a) ++ R).
