(** Specification of what a unified parse may contain, for any input. Lines carry their terminator. *)
From Coq Require Import String Permutation Sorted.
From Verif Require Import Base QtStr Diff SpecPatch.
Local Open Scope Z_scope.

(** The type of a difference says which sides are there. *)
Definition well_typed (d : difference) : Prop :=
  match d_type d with
  | Change => d_slines d <> [] /\ d_dlines d <> []
  | Insert => d_slines d = [] /\ d_dlines d <> []
  | Delete => d_slines d <> [] /\ d_dlines d = []
  | Unchanged => d_slines d <> [] /\ lines_of (d_slines d) = lines_of (d_dlines d)
  end.
Definition is_context (d : difference) : bool := match d_type d with Unchanged => true | _ => false end.

(** Each difference starts right where the previous one ended, in the source and in the destination. *)
Fixpoint contiguous (a b : Z) (ds : list difference) : Prop :=
  match ds with
  | [] => True
  | d :: ds' => d_src d = a /\ d_dst d = b /\ d_track d = a /\
                contiguous (a + count (d_slines d)) (b + count (d_dlines d)) ds'
  end.
(** As the parser hands it over. *)
Definition pristine (d : difference) : Prop :=
  d_applied d = false /\ d_unsaved d = false /\ d_conflicts d = false /\ d_connected d = negb (is_context d).

(** The lines of a unified diff that stand for a difference. *)
Definition prefixed (c : chr) (l : list dstr) : list str := map (fun s => c :: s) (lines_of l).
Definition printed (d : difference) : list str :=
  if is_context d then prefixed SP (d_slines d)
  else prefixed 45%N (d_slines d) ++ prefixed 43%N (d_dlines d).

(** A number in a text: a non-empty digit string; its value if that fits an int. *)
Definition digit_string (s : str) : Prop := s <> [] /\ forallb is_digit s = true.
(** One side of a hunk header: the number, then nothing or a comma and the count. A count of zero means
    that the side is empty and the number is that of the line before; a missing count means 1. A number
    that does not fit an int reads as 0, a count that does not makes the hunk unreadable. *)
Definition fits (s : str) : bool := Z.leb (digits_value 0 s) 2147483647.
Definition reads (s : str) : Z := if fits s then digits_value 0 s else 0.
Inductive side : str -> option Z -> Prop :=
| side_bare n : digit_string n -> side n (Some (reads n))
| side_count n k : digit_string n -> digit_string k -> fits k = true -> digits_value 0 k <> 0 ->
    side (n ++ lit "," ++ k) (Some (reads n))
| side_empty n k : digit_string n -> digit_string k -> digits_value 0 k = 0 ->
    side (n ++ lit "," ++ k) (Some (reads n + 1))
| side_unreadable n k : digit_string n -> digit_string k -> fits k = false ->
    side (n ++ lit "," ++ k) None.
(** A hunk header line: both sides, and the function: what follows the second @@ and at most one blank. *)
Inductive hunk_line : str -> option Z -> option Z -> str -> Prop :=
| hunk_line_intro s1 s2 a b sep f :
    side s1 a -> side s2 b -> (sep = [] \/ sep = lit " ") -> ~ In NL f ->
    hunk_line (lit "@@ -" ++ s1 ++ lit " +" ++ s2 ++ lit " @@" ++ sep ++ f ++ [NL]) a b f.

(** [hunks_from ls hs]: the lines [ls] are hunk by hunk the hunks [hs], nothing lost, invented or moved;
    a header with an unreadable count stands alone. *)
Inductive hunks_from : list str -> list (hunk * list difference) -> Prop :=
| hf_end : hunks_from [] []
| hf_hunk l a b f h ds ls hs :
    hunk_line l (Some a) (Some b) f ->
    h_src h = a -> h_dst h = b -> h_function h = f -> h_type h = HNormal ->
    contiguous a b ds -> Forall well_typed ds -> Forall pristine ds ->
    hunks_from ls hs ->
    hunks_from (l :: concat (map printed ds) ++ ls) ((h, ds) :: hs)
| hf_unreadable l a b f ls hs :
    hunk_line l a b f -> a = None \/ b = None ->
    hunks_from ls hs ->
    hunks_from (l :: ls) hs.

(** The contents of a model: its hunks with their differences; the listed differences are the
    non-context ones, in order, each once; they are the very objects of the hunks, and no object is in two
    places. *)
Definition listed_of (p : hunk * list difference) : list nat :=
  map fst (filter (fun q => negb (is_context (snd q))) (combine (h_diffs (fst p)) (snd p))).
Record links (m : dmodel) (hs : list (hunk * list difference)) : Prop := {
  ct_hunks : dm_hunks m = map fst hs;
  ct_diffs : Forall (fun p => deref_all (dm_store m) (h_diffs (fst p)) = Ok (snd p)) hs;
  ct_listed : deref_all (dm_store m) (dm_diffs m) =
              Ok (filter (fun d => negb (is_context d)) (concat (map snd hs)));
  ct_nodup : NoDup (dm_diffs m);
  ct_same : dm_diffs m = concat (map listed_of hs);
  ct_objects : NoDup (concat (map (fun p => h_diffs (fst p)) hs)) }.
(** As the parser leaves it: nothing applied, nothing selected, not blended. *)
Record contents (m : dmodel) (hs : list (hunk * list difference)) : Prop := {
  ct_links : links m hs;
  ct_state : dm_applied m = 0 /\ dm_index m = 0 /\ dm_sel m = None /\ dm_blended m = false }.

(** A file header line of a unified diff: the mark, a non-empty name without TAB, then nothing, or a TAB
    and a non-empty time stamp without TAB, or that and another TAB and anything. *)
Inductive header_line (mark : str) : str -> str -> str -> Prop :=
| hl_name p : p <> [] -> ~ In TAB p -> header_line mark (mark ++ p ++ [NL]) p []
| hl_stamp p t : p <> [] -> ~ In TAB p -> t <> [] -> ~ In TAB t ->
    header_line mark (mark ++ p ++ TAB :: t ++ [NL]) p t
| hl_more p t x : p <> [] -> ~ In TAB p -> t <> [] -> ~ In TAB t -> ~ In NL x ->
    header_line mark (mark ++ p ++ TAB :: t ++ TAB :: x ++ [NL]) p t.
(** Directory and file name of a path: cut after the last slash. *)
Record cut_at_slash (path dir file : str) : Prop := {
  cs_whole : path = dir ++ file; cs_file : ~ In SLASH file; cs_dir : dir = [] \/ exists d, dir = d ++ [SLASH] }.
(** What a header makes of a model: the names, time stamps and revisions. *)
Record named (m : dmodel) (source destination stamp1 stamp2 : str) : Prop := {
  nm_source : dm_source m = source; nm_destination : dm_destination m = destination;
  nm_source_cut : cut_at_slash source (dm_spath m) (dm_sfile m);
  nm_destination_cut : cut_at_slash destination (dm_dpath m) (dm_dfile m);
  nm_stamp1 : dm_sts m = stamp1; nm_stamp2 : dm_dts m = stamp2;
  nm_revision1 : dm_srev m = []; nm_revision2 : dm_drev m = [] }.
(** The two header lines of a file (GNU diff, CVS, Subversion, git). Names are unescaped. *)
Definition unified_start (l : str) : Prop := exists p t, header_line (lit "--- ") l p t.
Inductive unified_heading : list str -> dmodel -> Prop :=
| uh_intro l1 p1 t1 l2 p2 t2 m :
    header_line (lit "--- ") l1 p1 t1 -> header_line (lit "+++ ") l2 p2 t2 ->
    named m (unescape_path p1) (unescape_path p2) t1 t2 ->
    unified_heading [l1; l2] m.

(** The header line of a file (Perforce): the two sides are separated by the first " - ". The name of a
    side is what precedes its revision; without a number sign and a revision it is empty. The revision of
    the second side may be empty. *)
Inductive perforce_line : str -> str -> str -> Prop :=
| pl_intro s d : ~ In NL s -> ~ In NL d ->
    (forall u v, s ++ lit " - " ++ d = u ++ lit " - " ++ v -> (length s <= length u)%nat) ->
    perforce_line (lit "==== " ++ s ++ lit " - " ++ d ++ lit " ====" ++ [NL]) s d.
Definition revisioned (need : bool) (s n : str) : Prop :=
  exists k, s = n ++ lit "#" ++ k /\ n <> [] /\ ~ In 35%N n /\ forallb is_digit k = true /\ (need = true -> k <> []).
Definition perforce_name (need : bool) (s n : str) : Prop :=
  revisioned need s n \/ (n = [] /\ forall n, ~ revisioned need s n).
Definition perforce_start (l : str) : Prop := exists s d, perforce_line l s d.
Inductive perforce_heading : list str -> dmodel -> Prop :=
| ph_intro l s d n1 n2 m :
    perforce_line l s d -> perforce_name true s n1 -> perforce_name false d n2 -> named m n1 n2 [] [] ->
    perforce_heading [l] m.

(** [files_from starts heading ls ms bad]: the lines are, file by file, skipped lines of which none starts a
    header, a file header (which [heading] relates to the names it gives a model), and hunks; after the
    last file comes no line that starts a header, or one that does but is not continued as a header. A
    file without differences gives no model. [bad] tells if the hunks of some file are followed by a
    line that is unexpected there. *)
Definition unexpected (starts : str -> Prop) (ls : list str) : Prop :=
  exists l ls', ls = l :: ls' /\ ~ starts l /\
    forall x, l <> lit "Index: " ++ x /\ l <> lit "diff " ++ x /\ l <> lit "-- " ++ x.
Inductive files_from (starts : str -> Prop) (heading : list str -> dmodel -> Prop) : list str -> list dmodel -> bool -> Prop :=
| ff_end rest : Forall (fun l => ~ starts l) rest -> files_from starts heading rest [] false
| ff_stop skip l rest : Forall (fun l => ~ starts l) skip -> starts l ->
    (forall hd tl m, l :: rest = hd ++ tl -> ~ heading hd m) ->
    files_from starts heading (skip ++ l :: rest) [] false
| ff_file skip hd body hs m ls ms b bad :
    Forall (fun l => ~ starts l) skip ->
    heading hd m -> hunks_from body hs -> contents m hs ->
    dm_diffs m <> [] -> (b = true <-> unexpected starts ls) -> files_from starts heading ls ms bad ->
    files_from starts heading (skip ++ hd ++ body ++ ls) (m :: ms) (b || bad)
| ff_nothing skip hd m0 body hs ls ms b bad :
    Forall (fun l => ~ starts l) skip ->
    heading hd m0 -> hunks_from body hs -> (forall h ds, In (h, ds) hs -> Forall (fun d => is_context d = true) ds) ->
    (b = true <-> unexpected starts ls) -> files_from starts heading ls ms bad ->
    files_from starts heading (skip ++ hd ++ body ++ ls) ms (b || bad).

(** Input on which parsing is defined: no line is empty or 65535 characters long or longer; the last line
    does not begin like a file header; and somewhere after a line that begins like a context header there
    is a line that cannot be in the body of a context hunk. *)
Definition body_like (l : str) : Prop := exists x y, l = x :: SP :: y /\ In x (lit "-+! ").
Record safe (ls : list str) : Prop := {
  sf_lines : Forall (fun l => l <> [] /\ (N.of_nat (length l) < 65535)%N) ls;
  sf_last : forall pre x, ls <> pre ++ [lit "--- " ++ x];
  sf_context : forall pre x post, ls = pre ++ (lit "*** " ++ x) :: post -> exists l, In l post /\ ~ body_like l }.

(** Marker lines for a missing final newline. *)
Definition no_newline_marker (l : str) : Prop := exists x, l = lit "\ No newline" ++ x.
(** Every marker line is dropped and the line before it loses its newline; all other lines stay. *)
Inductive folded : list str -> list str -> Prop :=
| fo_end : folded [] []
| fo_keep l ls out : ~ no_newline_marker l -> folded ls out -> folded (l :: ls) (l :: out)
| fo_marked t k ls out : ~ no_newline_marker (t ++ [NL]) -> ~ In NL t -> no_newline_marker k -> folded ls out ->
    folded ((t ++ [NL]) :: k :: ls) (t :: out).

(** Sorting. A collation is a total preorder; std::sort permutes and sorts with respect to a strict weak
    order. *)
Record collation (coll : str -> str -> comparison) : Prop := {
  co_sym : forall a b, coll b a = CompOpp (coll a b);
  co_trans : forall a b c, coll a b = Lt -> coll b c = Lt -> coll a c = Lt;
  co_eq : forall a b c, coll a b = Eq -> coll a c = coll b c }.
Record strict_weak_order {A} (lt : A -> A -> bool) : Prop := {
  sw_irrefl : forall a, lt a a = false;
  sw_trans : forall a b c, lt a b = true -> lt b c = true -> lt a c = true;
  sw_incomparable : forall a b c, lt a b = false -> lt b a = false -> lt b c = false -> lt c b = false ->
    lt a c = false /\ lt c a = false }.
Definition std_sort {A} (lt : A -> A -> bool) (sort : list A -> list A) : Prop :=
  strict_weak_order lt -> forall l, Permutation (sort l) l /\ StronglySorted (fun a b => lt b a = false) (sort l).
(** By directory of the source, then by its file name. *)
Definition in_order (coll : str -> str -> comparison) (a b : dmodel) : Prop :=
  coll (dm_spath a) (dm_spath b) = Lt \/
  (coll (dm_spath a) (dm_spath b) = Eq /\ coll (dm_sfile a) (dm_sfile b) <> Gt).
