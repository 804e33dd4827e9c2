(** The regular expressions of the parsers. In the comments a blank separates a star from a closing
    parenthesis, and QUOTE stands for a double quote, to keep them readable as Coq comments. *)
From Coq Require Import String.
From Verif Require Import Base QtStr Regex.

Definition T (s : string) : re := text (lit s).
Definition nl : re := is NL.
Definition tab : re := is TAB.
Definition digits : re := plus digit.

(** parserbase.cpp 68: \*{15} ?(.* )\n *)
Definition context_hunk_header1 : re := T "***************" ~~ opt (is SP) ~~ RGroup 1 (star any) ~~ nl.
(** parserbase.cpp 69: \*\*\* ([0-9]+),([0-9]+) \*\*\*\*.*\n *)
Definition context_hunk_header2 : re :=
  T "*** " ~~ RGroup 1 digits ~~ T "," ~~ RGroup 2 digits ~~ T " ****" ~~ star any ~~ nl.
(** parserbase.cpp 71: --- ([0-9]+),([0-9]+) ----\n *)
Definition context_hunk_header3 : re :=
  T "--- " ~~ RGroup 1 digits ~~ T "," ~~ RGroup 2 digits ~~ T " ----" ~~ nl.
(** parserbase.cpp 73-77: - (.* )\n, \+ (.* )\n, ! (.* )\n,   (.* )\n, [-\+! ] (.* )\n *)
Definition context_removed : re := T "- " ~~ RGroup 1 (star any) ~~ nl.
Definition context_added : re := T "+ " ~~ RGroup 1 (star any) ~~ nl.
Definition context_changed : re := T "! " ~~ RGroup 1 (star any) ~~ nl.
Definition context_context : re := T "  " ~~ RGroup 1 (star any) ~~ nl.
Definition context_line : re := one_of (lit "-+! ") ~~ is SP ~~ RGroup 1 (star any) ~~ nl.
(** parserbase.cpp 80: diff (?:(?:-|--)[a-zA-Z0-9=\QUOTE]+ )*(?:|-- +)(.* ) +(.* )\n *)
Definition option_chr (c : chr) : bool :=
  (is_digit c || (N.leb 97 c && N.leb c 122) || (N.leb 65 c && N.leb c 90) ||
   N.eqb c 61 || N.eqb c QUOTE)%bool.
Definition normal_diff_header : re :=
  T "diff " ~~ star (RAlt (T "-") (T "--") ~~ plus (RChr option_chr) ~~ is SP) ~~
  RAlt REps (T "--" ~~ plus (is SP)) ~~ RGroup 1 (star any) ~~ plus (is SP) ~~ RGroup 2 (star any) ~~ nl.
(** (|,[0-9]+) *)
Definition comma_digits (n : nat) : re := RGroup n (RAlt REps (T "," ~~ digits)).
(** parserbase.cpp 82: ([0-9]+)a([0-9]+)(|,[0-9]+)(.* )\n *)
Definition normal_added_header : re :=
  RGroup 1 digits ~~ T "a" ~~ RGroup 2 digits ~~ comma_digits 3 ~~ RGroup 4 (star any) ~~ nl.
(** parserbase.cpp 83: ([0-9]+)(|,[0-9]+)d([0-9]+)(.* )\n *)
Definition normal_removed_header : re :=
  RGroup 1 digits ~~ comma_digits 2 ~~ T "d" ~~ RGroup 3 digits ~~ RGroup 4 (star any) ~~ nl.
(** parserbase.cpp 84: ([0-9]+)(|,[0-9]+)c([0-9]+)(|,[0-9]+)(.* )\n *)
Definition normal_changed_header : re :=
  RGroup 1 digits ~~ comma_digits 2 ~~ T "c" ~~ RGroup 3 digits ~~ comma_digits 4 ~~ RGroup 5 (star any) ~~ nl.
(** parserbase.cpp 86-88: < (.* )\n, > (.* )\n, ---\n *)
Definition normal_removed : re := T "< " ~~ RGroup 1 (star any) ~~ nl.
Definition normal_added : re := T "> " ~~ RGroup 1 (star any) ~~ nl.
Definition normal_divider : re := T "---" ~~ nl.
(** parserbase.cpp 90, 91: --- ([^\t]+)(?:\t([^\t]+)(?:\t?)(.* ))?\n and the same with \+\+\+  *)
Definition unified_header (mark : string) : re :=
  T mark ~~ RGroup 1 (plus (not_chr TAB)) ~~
  opt (tab ~~ RGroup 2 (plus (not_chr TAB)) ~~ opt tab ~~ RGroup 3 (star any)) ~~ nl.
Definition unified_header1 : re := unified_header "--- ".
Definition unified_header2 : re := unified_header "+++ ".
(** parserbase.cpp 92: @@ -([0-9]+)(|,([0-9]+)) \+([0-9]+)(|,([0-9]+)) @@(?: ?)(.* )\n *)
Definition unified_hunk_header : re :=
  T "@@ -" ~~ RGroup 1 digits ~~ RGroup 2 (RAlt REps (T "," ~~ RGroup 3 digits)) ~~
  T " +" ~~ RGroup 4 digits ~~ RGroup 5 (RAlt REps (T "," ~~ RGroup 6 digits)) ~~
  T " @@" ~~ opt (is SP) ~~ RGroup 7 (star any) ~~ nl.

(** cvsdiffparser.cpp 22: \*\*\* ([^\t]+)\t([^\t]+)\t(.* )\n *)
Definition cvs_context_header1 : re :=
  T "*** " ~~ RGroup 1 (plus (not_chr TAB)) ~~ tab ~~ RGroup 2 (plus (not_chr TAB)) ~~ tab ~~ RGroup 3 (star any) ~~ nl.
(** cvsdiffparser.cpp 23: --- ([^\t]+)\t([^\t]+)(|\t(.* ))\n *)
Definition cvs_context_header2 : re :=
  T "--- " ~~ RGroup 1 (plus (not_chr TAB)) ~~ tab ~~ RGroup 2 (plus (not_chr TAB)) ~~
  RGroup 3 (RAlt REps (tab ~~ RGroup 4 (star any))) ~~ nl.
(** cvsdiffparser.cpp 25: Index: (.* )\n *)
Definition cvs_normal_header : re := T "Index: " ~~ RGroup 1 (star any) ~~ nl.
(** diffparser.cpp 20, 21: \*\*\* ([^\t]+)(\t([^\t]+))?\n and the same with ---  *)
Definition diff_context_header (mark : string) : re :=
  T mark ~~ RGroup 1 (plus (not_chr TAB)) ~~ opt (RGroup 2 (tab ~~ RGroup 3 (plus (not_chr TAB)))) ~~ nl.
(** perforceparser.cpp 20-27: ==== (.* ) - (.* ) ====\n with InvertedGreedinessOption (all lazy). *)
Definition perforce_header : re :=
  T "==== " ~~ RGroup 1 (RStar false any) ~~ T " - " ~~ RGroup 2 (RStar false any) ~~ T " ====" ~~ nl.
(** perforceparser.cpp 71, 112, 160: ([^\#]+)#(\d+) *)
Definition HASH : chr := 35%N.
Definition perforce_source_file : re := RGroup 1 (plus (not_chr HASH)) ~~ is HASH ~~ RGroup 2 digits.
(** perforceparser.cpp 72, 113, 161: ([^\#]+)#(|\d+) *)
Definition perforce_destination_file : re := RGroup 1 (plus (not_chr HASH)) ~~ is HASH ~~ RGroup 2 (RAlt REps digits).

(** Format detection. cvsdiffparser.cpp 34-38, diffparser.cpp 30-34. *)
Definition digit_or_comma : re := RChr (fun x => is_digit x || N.eqb x 44)%bool.
Definition normal_re : re :=        (* [0-9]+[0-9,]*[acd][0-9]+[0-9,]* *)
  digits ~~ star digit_or_comma ~~ one_of (lit "acd") ~~ digits ~~ star digit_or_comma.
Definition cvs_unified_re : re := T "--- " ~~ plus (not_chr TAB) ~~ tab.
Definition cvs_context_re : re := T "*** " ~~ plus (not_chr TAB) ~~ tab.
Definition diff_unified_re : re := T "--- ".
Definition diff_context_re : re := T "*** ".
Definition rcs_re : re := one_of (lit "acd") ~~ digits ~~ is SP ~~ digits.
Definition ed_re : re := digits ~~ star digit_or_comma ~~ one_of (lit "acd").
(** perforceparser.cpp 36-39. *)
Definition perforce_unified_re : re := T "@@".
Definition perforce_context_re : re := T "***************".
Definition maybe_comma_digits : re := RAlt REps (T "," ~~ digits).
Definition perforce_normal_re : re :=
  digits ~~ maybe_comma_digits ~~ one_of (lit "acd") ~~ digits ~~ maybe_comma_digits.
Definition perforce_rcs_re : re := rcs_re.
