(** Specification of what becomes of every line of a normal or context diff, well-formed or not. *)
From Coq Require Import String.
From Verif Require SpecNormal.
From Verif Require Import Base QtStr Diff SpecPatch SpecParse.
Local Open Scope Z_scope.

Definition shows (d : difference) (ty : dtype) (old new : list str) : Prop :=
  d_type d = ty /\ lines_of (d_slines d) = old /\ lines_of (d_dlines d) = new.
Definition one_line (t : str) : Prop := ~ In NL t.

(** * Normal diffs *)
(** "< text" or "> text", each with its newline. *)
Definition run_of (mark : string) (ts : list str) : list str := map (fun t => lit mark ++ t ++ [NL]) ts.
Definition no_more (mark : string) (rest : list str) : Prop :=
  forall t rest', one_line t -> rest <> (lit mark ++ t ++ [NL]) :: rest'.
(** A command line: a number or two, a letter, a number, and anything that does not continue it. *)
Definition second (r : str) : Prop := r = [] \/ exists k, digit_string k /\ r = lit "," ++ k.
Definition trailing (x : str) : Prop := one_line x /\ forall c y, x = c :: y -> is_digit c = false.
Inductive command_line : str -> dtype -> Z -> Z -> Prop :=
| cl_add n m x : digit_string n -> digit_string m -> trailing x ->
    command_line (n ++ lit "a" ++ m ++ x ++ [NL]) Insert (reads n) (reads m)
| cl_delete n r m x : digit_string n -> second r -> digit_string m -> trailing x ->
    command_line (n ++ r ++ lit "d" ++ m ++ x ++ [NL]) Delete (reads n) (reads m)
| cl_change n r m x : digit_string n -> second r -> digit_string m -> trailing x ->
    command_line (n ++ r ++ lit "c" ++ m ++ x ++ [NL]) Change (reads n) (reads m).
(** [command_body ty body old new rest]: the lines that belong to a command: all the lines of the mark that can follow; of a
    change, the new ones only after a divider. [rest] is what comes next. *)
Inductive command_body : dtype -> list str -> list str -> list str -> list str -> Prop :=
| cb_add new rest : Forall one_line new -> no_more "> " rest -> command_body Insert (run_of "> " new) [] new rest
| cb_delete old rest : Forall one_line old -> no_more "< " rest -> command_body Delete (run_of "< " old) old [] rest
| cb_change old new rest : Forall one_line old -> Forall one_line new -> no_more "> " rest ->
    command_body Change (run_of "< " old ++ [lit "---" ++ [NL]] ++ run_of "> " new) old new rest
| cb_undivided old rest : Forall one_line old -> no_more "< " rest -> (forall rest', rest <> (lit "---" ++ [NL]) :: rest') ->
    command_body Change (run_of "< " old) old [] rest.
(** [commands ls hs rest]: the lines [ls] are the commands that the hunks [hs] show, one difference each, and then [rest], which
    does not begin with a command. *)
Inductive commands : list str -> list (hunk * list difference) -> list str -> Prop :=
| cs_end rest : (forall l rest' ty a b, rest = l :: rest' -> ~ command_line l ty a b) -> commands rest [] rest
| cs_command l ty a b body old new h d ls hs rest :
    command_line l ty a b -> command_body ty body old new ls ->
    h_src h = a -> h_dst h = b -> h_function h = [] -> h_type h = HNormal ->
    contiguous a b [d] -> shows d ty old new -> pristine d ->
    commands ls hs rest -> commands (l :: body ++ ls) ((h, [d]) :: hs) rest.

(** * Context diffs *)
(** A line of a side of a hunk: its mark, a blank, its text. *)
Definition cline := (chr * str)%type.
Definition cline_text (l : cline) : str := fst l :: SP :: snd l ++ [NL].
Definition cline_ok (l : cline) : Prop := In (fst l) (lit "-+! ") /\ one_line (snd l).
Definition next_mark (ls : list cline) : option chr := match ls with [] => None | l :: _ => Some (fst l) end.
Definition MINUS : chr := 45%N.
Definition PLUS : chr := 43%N.
Definition BANG : chr := 33%N.
Definition all_marked (c : chr) (ts : list str) : list cline := map (pair c) ts.
Definition over_or_common (ls : list cline) : Prop := ls = [] \/ next_mark ls = Some SP.
(** [paired old new ds]: the differences that the two sides of a hunk give. Removed lines come first, then added ones; common
    lines are taken from both sides at once, from the new one if they differ, from the other one if one has ended; changed lines of
    both sides make one difference, whether or not the other side has any. An added line on the old side or a removed one
    on the new side ends it: what follows is dropped. *)
Inductive paired : list cline -> list cline -> list difference -> Prop :=
| pr_end : paired [] [] []
| pr_removed ts old new d ds : ts <> [] -> next_mark old <> Some MINUS ->
    shows d Delete ts [] -> paired old new ds -> paired (all_marked MINUS ts ++ old) new (d :: ds)
| pr_added ts old new d ds : ts <> [] -> next_mark old <> Some MINUS -> next_mark new <> Some PLUS ->
    shows d Insert [] ts -> paired old new ds -> paired old (all_marked PLUS ts ++ new) (d :: ds)
| pr_common os ns old new d ds :
    os <> [] \/ ns <> [] ->
    length os = length ns \/ ((length os < length ns)%nat /\ old = []) \/ ((length ns < length os)%nat /\ new = []) ->
    ~ (over_or_common old /\ over_or_common new /\ (old <> [] \/ new <> [])) ->
    shows d Unchanged (ns ++ skipn (length ns) os) (ns ++ skipn (length ns) os) ->
    paired old new ds -> paired (all_marked SP os ++ old) (all_marked SP ns ++ new) (d :: ds)
| pr_changed os ns old new d ds :
    os <> [] \/ ns <> [] -> next_mark old <> Some BANG -> next_mark new <> Some BANG ->
    (os = [] -> next_mark old <> Some MINUS) -> (ns = [] -> next_mark new <> Some PLUS) ->
    shows d Change os ns ->
    paired old new ds -> paired (all_marked BANG os ++ old) (all_marked BANG ns ++ new) (d :: ds)
| pr_wrong_side old new :
    next_mark old <> Some MINUS -> next_mark new <> Some PLUS -> next_mark old <> Some BANG -> next_mark new <> Some BANG ->
    next_mark old = Some PLUS \/ next_mark new = Some MINUS -> paired old new [].

(** The three header lines of a hunk. *)
Inductive star_line : str -> str -> Prop :=
| sl_blank f : one_line f -> star_line (lit "***************" ++ SP :: f ++ [NL]) f
| sl_none f : one_line f -> (forall y, f <> SP :: y) -> star_line (lit "***************" ++ f ++ [NL]) f.
Inductive old_range : str -> Z -> Prop :=
| or_intro n k x : digit_string n -> digit_string k -> one_line x -> old_range (lit "*** " ++ n ++ lit "," ++ k ++ lit " ****" ++ x ++ [NL]) (reads n).
Inductive new_range : str -> Z -> Prop :=
| nr_intro n k : digit_string n -> digit_string k -> new_range (lit "--- " ++ n ++ lit "," ++ k ++ lit " ----" ++ [NL]) (reads n).
Definition no_cline (ls : list str) : Prop := forall l ls', cline_ok l -> ls <> cline_text l :: ls'.
(** [chunks ls hs rest]: the lines [ls] are hunks and then [rest]. A hunk whose second range is missing is dropped with its lines;
    a line of stars without a range ends the hunks of the file. *)
Inductive chunks : list str -> list (hunk * list difference) -> list str -> Prop :=
| ck_end rest : (forall l rest' f, rest = l :: rest' -> ~ star_line l f) -> chunks rest [] rest
| ck_alone l f rest : star_line l f -> (forall l2 rest' a, rest = l2 :: rest' -> ~ old_range l2 a) -> chunks (l :: rest) [] rest
| ck_dropped l f l2 a old l3 ls hs rest :
    star_line l f -> old_range l2 a -> Forall cline_ok old -> no_cline (l3 :: ls) -> (forall b, ~ new_range l3 b) ->
    chunks (l3 :: ls) hs rest -> chunks (l :: l2 :: map cline_text old ++ l3 :: ls) hs rest
| ck_hunk l f l2 a old l3 b new h ds ls hs rest :
    star_line l f -> old_range l2 a -> Forall cline_ok old -> new_range l3 b -> Forall cline_ok new -> no_cline ls ->
    paired old new ds -> contiguous a b ds -> Forall pristine ds ->
    h_src h = a -> h_dst h = b -> h_function h = f -> h_type h = HNormal ->
    chunks ls hs rest ->
    chunks (l :: l2 :: map cline_text old ++ l3 :: map cline_text new ++ ls) ((h, ds) :: hs) rest.

(** * Unified diffs *)
(** One side of a hunk header: the first line and the count, as in SpecParse.v. *)
Inductive range : str -> option (Z * Z) -> Prop :=
| rg_bare n : digit_string n -> range n (Some (reads n, 1))
| rg_count n k : digit_string n -> digit_string k -> fits k = true -> digits_value 0 k <> 0 -> range (n ++ lit "," ++ k) (Some (reads n, digits_value 0 k))
| rg_empty n k : digit_string n -> digit_string k -> digits_value 0 k = 0 -> range (n ++ lit "," ++ k) (Some (reads n + 1, 0))
| rg_unreadable n k : digit_string n -> digit_string k -> fits k = false -> range (n ++ lit "," ++ k) None.
Inductive range_line : str -> option (Z * Z) -> option (Z * Z) -> str -> Prop :=
| rl_blank s1 s2 r1 r2 f : range s1 r1 -> range s2 r2 -> one_line f ->
    range_line (lit "@@ -" ++ s1 ++ lit " +" ++ s2 ++ lit " @@" ++ SP :: f ++ [NL]) r1 r2 f
| rl_none s1 s2 r1 r2 f : range s1 r1 -> range s2 r2 -> one_line f -> (forall y, f <> SP :: y) ->
    range_line (lit "@@ -" ++ s1 ++ lit " +" ++ s2 ++ lit " @@" ++ f ++ [NL]) r1 r2 f.
(** The leading lines of a mark, as long as the counts [ca], [cb] of the lines to come are not both zero (they may fall below zero:
    then the lines go on as long as there are marked ones). A line counts [da] on the old side and [db] on the new one. *)
Inductive run (mark : chr) (da db : Z) : Z -> Z -> list str -> list str -> Z -> Z -> list str -> Prop :=
| run_stop ca cb ls : (ca = 0 /\ cb = 0) \/ (forall t ls', ls <> (mark :: t) :: ls') -> run mark da db ca cb ls [] ca cb ls
| run_line ca cb t ls ts ca' cb' rest : ~ (ca = 0 /\ cb = 0) -> run mark da db (ca - da) (cb - db) ls ts ca' cb' rest ->
    run mark da db ca cb ((mark :: t) :: ls) (t :: ts) ca' cb' rest.
Definition change_of (old new : list str) : dtype := match old, new with [], _ => Insert | _, [] => Delete | _, _ => Change end.
(** [counted ca cb ls ds rest]: the differences that the lines of a hunk give. Lines keep their newlines. *)
Inductive counted : Z -> Z -> list str -> list difference -> list str -> Prop :=
| cn_stop ca cb ls : (ca = 0 /\ cb = 0) \/ (forall c t ls', ls = (c :: t) :: ls' -> c <> SP /\ c <> PLUS /\ c <> MINUS) -> counted ca cb ls [] ls
| cn_common ca cb ls ts ca' cb' ls' d ds rest : run SP 1 1 ca cb ls ts ca' cb' ls' -> ts <> [] ->
    shows d Unchanged ts ts -> counted ca' cb' ls' ds rest -> counted ca cb ls (d :: ds) rest
| cn_changed ca cb ls old c1 c2 ls1 new c3 c4 ls2 d ds rest : run MINUS 1 0 ca cb ls old c1 c2 ls1 -> run PLUS 0 1 c1 c2 ls1 new c3 c4 ls2 ->
    old <> [] \/ new <> [] -> shows d (change_of old new) old new -> counted c3 c4 ls2 ds rest -> counted ca cb ls (d :: ds) rest.
(** [patches ls hs rest]: the lines [ls] are hunks and then [rest]. A header with an unreadable count stands alone. *)
Inductive patches : list str -> list (hunk * list difference) -> list str -> Prop :=
| pt_end rest : (forall l rest' r1 r2 f, rest = l :: rest' -> ~ range_line l r1 r2 f) -> patches rest [] rest
| pt_unreadable l r1 r2 f ls hs rest : range_line l r1 r2 f -> r1 = None \/ r2 = None -> patches ls hs rest -> patches (l :: ls) hs rest
| pt_hunk l a ca b cb f ls ls' h ds hs rest :
    range_line l (Some (a, ca)) (Some (b, cb)) f -> counted ca cb ls ds ls' -> contiguous a b ds -> Forall pristine ds ->
    h_src h = a -> h_dst h = b -> h_function h = f -> h_type h = HNormal ->
    patches ls' hs rest -> patches (l :: ls) ((h, ds) :: hs) rest.

(** * Files *)
(** As [files_from] of SpecParse.v, for any format: [hunks ls hs rest] tells how the lines after a file header are read. *)
Inductive files_with (starts : str -> Prop) (heading : list str -> dmodel -> Prop)
    (hunks : list str -> list (hunk * list difference) -> list str -> Prop) : list str -> list dmodel -> bool -> Prop :=
| fw_end rest : Forall (fun l => ~ starts l) rest -> files_with starts heading hunks rest [] false
| fw_stop skip l rest : Forall (fun l => ~ starts l) skip -> starts l ->
    (forall hd tl m, l :: rest = hd ++ tl -> ~ heading hd m) ->
    files_with starts heading hunks (skip ++ l :: rest) [] false
| fw_file skip hd body hs m ls ms b bad :
    Forall (fun l => ~ starts l) skip ->
    heading hd m -> hunks body hs ls -> contents m hs ->
    dm_diffs m <> [] -> (b = true <-> unexpected starts ls) -> files_with starts heading hunks ls ms bad ->
    files_with starts heading hunks (skip ++ hd ++ body) (m :: ms) (b || bad)
| fw_nothing skip hd m0 body hs ls ms b bad :
    Forall (fun l => ~ starts l) skip ->
    heading hd m0 -> hunks body hs ls -> (forall h ds, In (h, ds) hs -> Forall (fun d => is_context d = true) ds) ->
    (b = true <-> unexpected starts ls) -> files_with starts heading hunks ls ms bad ->
    files_with starts heading hunks (skip ++ hd ++ body) ms (b || bad).

(** Headers of context diffs: without a time stamp or with one; CVS: with a time stamp and, for the old file, a revision, which is
    read as the time stamp (and for the new one, with the TAB before it). *)
Inductive context_header_line (mark : str) : str -> str -> str -> Prop :=
| xl_name p : p <> [] -> ~ In TAB p -> context_header_line mark (mark ++ p ++ [NL]) p []
| xl_stamp p t : p <> [] -> ~ In TAB p -> t <> [] -> ~ In TAB t -> context_header_line mark (mark ++ p ++ TAB :: t ++ [NL]) p t.
Definition context_start (l : str) : Prop := exists p t, context_header_line (lit "*** ") l p t.
Inductive context_heading : list str -> dmodel -> Prop :=
| xh_intro l1 p1 t1 l2 p2 t2 m :
    context_header_line (lit "*** ") l1 p1 t1 -> context_header_line (lit "--- ") l2 p2 t2 ->
    named m (unescape_path p1) (unescape_path p2) t1 t2 -> context_heading [l1; l2] m.
Inductive cvs_old_line : str -> str -> str -> Prop :=
| vl_old p t r : p <> [] -> ~ In TAB p -> t <> [] -> ~ In TAB t -> one_line r ->
    cvs_old_line (lit "*** " ++ p ++ TAB :: t ++ TAB :: r ++ [NL]) p r.
Inductive cvs_new_line : str -> str -> str -> Prop :=
| vl_bare p t : p <> [] -> ~ In TAB p -> t <> [] -> ~ In TAB t -> cvs_new_line (lit "--- " ++ p ++ TAB :: t ++ [NL]) p []
| vl_new p t r : p <> [] -> ~ In TAB p -> t <> [] -> ~ In TAB t -> one_line r ->
    cvs_new_line (lit "--- " ++ p ++ TAB :: t ++ TAB :: r ++ [NL]) p (TAB :: r).
Definition cvs_start (l : str) : Prop := exists p r, cvs_old_line l p r.
Inductive cvs_heading : list str -> dmodel -> Prop :=
| vh_intro l1 p1 r1 l2 p2 r2 m :
    cvs_old_line l1 p1 r1 -> cvs_new_line l2 p2 r2 -> named m (unescape_path p1) (unescape_path p2) r1 r2 -> cvs_heading [l1; l2] m.
(** Headers of normal diffs: the command line of diff, of which the leading options (SpecNormal.diff_option) are left out as long as a blank remains; the
    second name is what follows the last blank. CVS: the Index line, the name as it is, for both sides. *)
Inductive diff_line : str -> str -> str -> Prop :=
| dl_intro os n1 n2 : Forall SpecNormal.diff_option os -> one_line n1 -> one_line n2 -> ~ In SP n2 ->
    (forall o y, SpecNormal.diff_option o -> n1 <> o ++ lit " " ++ y) ->
    diff_line (lit "diff " ++ concat (map (fun o => o ++ lit " ") os) ++ n1 ++ lit " " ++ n2 ++ [NL]) n1 n2.
Definition diff_start (l : str) : Prop := exists n1 n2, diff_line l n1 n2.
Inductive diff_heading : list str -> dmodel -> Prop :=
| dh_intro l n1 n2 m : diff_line l n1 n2 -> named m (unescape_path n1) (unescape_path n2) [] [] -> diff_heading [l] m.
Inductive index_line : str -> str -> Prop :=
| il_intro n : one_line n -> index_line (lit "Index: " ++ n ++ [NL]) n.
Definition index_start (l : str) : Prop := exists n, index_line l n.
Inductive index_heading : list str -> dmodel -> Prop :=
| ih_intro l n m : index_line l n -> named m n n [] [] -> index_heading [l] m.

(** A normal diff is read twice: as files with headers, and once more from the first line on as commands of a file without a name;
    it is malformed unless the second time takes every line. *)
Definition normal_with (starts : str -> Prop) (heading : list str -> dmodel -> Prop) (ls : list str) (ms : list dmodel) (bad : bool) : Prop :=
  exists ms1 bad1 hs rest, files_with starts heading commands ls ms1 bad1 /\ commands ls hs rest /\
    ((hs = [] /\ ms = ms1) \/ (hs <> [] /\ exists m, ms = ms1 ++ [m] /\ contents m hs /\ named m [] [] [] [])) /\
    (bad = true <-> bad1 = true \/ rest <> []).

(** What a hunk shows: where it is, its function, and its differences. Two models show the same if they have the same names and
    time stamps and their hunks show the same. *)
Definition difference_shows (d : difference) : dtype * list str * list str := (d_type d, lines_of (d_slines d), lines_of (d_dlines d)).
Definition hunk_shows (p : hunk * list difference) : Z * Z * str * list (dtype * list str * list str) :=
  (h_src (fst p), h_dst (fst p), h_function (fst p), map difference_shows (snd p)).
Definition same_file (m m' : dmodel) : Prop :=
  (dm_source m = dm_source m' /\ dm_destination m = dm_destination m' /\ dm_sts m = dm_sts m' /\ dm_dts m = dm_dts m') /\
  exists hs hs', contents m hs /\ contents m' hs' /\ map hunk_shows hs = map hunk_shows hs'.
