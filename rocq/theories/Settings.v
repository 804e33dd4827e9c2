(** Model of DiffSettings (diffsettings.h, diffsettings.cpp) and of the part of KConfig it uses. *)
From Coq Require Import String.
From Verif Require Import Base QtStr.
Open Scope Z_scope.

(** diffsettings.h 38-61: the public members. [st_format] is the int behind the Format enumerator
    (global.h 16-24: Context 0, Ed 1, Normal 2, RCS 3, Unified 4, SideBySide 5, UnknownFormat -1). *)
Record settings := mk_settings {
  st_program : str; st_context : Z; st_format : Z;
  st_large : bool; st_space : bool; st_all_space : bool; st_empty_lines : bool; st_tabs : bool;
  st_smaller : bool; st_case : bool; st_function : bool; st_expand : bool;
  st_regexp : bool; st_regexp_text : str; st_regexp_history : list str;
  st_recursive : bool; st_new_files : bool;
  st_patterns : bool; st_pattern_list : list str;
  st_file : bool; st_file_url : str; st_file_history : list str }.

(** diffsettings.cpp 19-37: the constructor (Qt's strings and lists start empty). *)
Definition fresh_settings : settings :=
  mk_settings [] 0 4 false false false false false false false false false false [] [] false false false [] false [] [].

(** A KConfig: the text of every entry, by group and key. Immutable (kiosk) entries, the cascade of files and
    the write to disk by sync() are not modelled. *)
Definition config := str -> str -> option str.
Definition write_text (g k : str) (v : str) (c : config) : config :=
  fun g' k' => if (str_eqb g g' && str_eqb k k')%bool then Some v else c g' k'.

(** KConfigGroup's text form of the entries (kconfig: kconfiggroup.cpp, not in /repo). Booleans. *)
Definition bool_text (b : bool) : str := if b then lit "true" else lit "false".
(** Lower case of ASCII letters, as QByteArray::toLower does. *)
Definition lower (c : chr) : chr := if (N.leb 65 c && N.leb c 90)%N then (c + 32)%N else c.
Definition read_bool (t : str) : bool :=
  let l := map lower t in
  negb (str_eqb l (lit "false") || str_eqb l (lit "no") || str_eqb l (lit "off") || str_eqb l (lit "0"))%bool.
(** Integers; an entry that is not the text of an int gives the default. Spaces around the number, which
    QByteArray::toInt skips, are not modelled. *)
Definition read_int (t : str) (default : Z) : Z :=
  let '(sign, digits) := match t with c :: t' => if N.eqb c 45 then (-1, t') else (1, t) | [] => (1, []) end in
  if (negb (Nat.eqb (length digits) 0) && forallb is_digit digits)%bool then
    let v := sign * digits_value 0 digits in
    if (Z.leb (-2147483648) v && Z.leb v 2147483647)%bool then v else default
  else default.
(** Lists: elements separated by commas, with a backslash before each comma and backslash of an element; a list of
    one empty element is written as a backslash and a zero. *)
Definition BSL : chr := 92%N.
Definition COMMA : chr := 44%N.
Definition quote (s : str) : str :=
  flat_map (fun c => if (N.eqb c BSL || N.eqb c COMMA)%bool then [BSL; c] else [c]) s.
Fixpoint join_quoted (l : list str) : str :=
  match l with
  | [] => []
  | [s] => quote s
  | s :: l' => quote s ++ COMMA :: join_quoted l'
  end.
Definition list_text (l : list str) : str :=
  match l with
  | [] => []
  | _ => match join_quoted l with [] => [BSL; 48%N] | t => t end
  end.
Fixpoint unquote (quoted : bool) (val : str) (t : str) : list str :=
  match t with
  | [] => [val]
  | c :: t' =>
      if quoted then unquote false (val ++ [c]) t'
      else if N.eqb c BSL then unquote true val t'
      else if N.eqb c COMMA then val :: unquote false [] t'
      else unquote false (val ++ [c]) t'
  end.
Definition read_list (t : str) : list str :=
  match t with
  | [] => []
  | _ => if str_eqb t [BSL; 48%N] then [[]] else unquote false [] t
  end.

(** KConfigGroup::readEntry with a default for an absent entry, and writeEntry. *)
Definition get_str (c : config) (g k : str) (d : str) : str := match c g k with Some t => t | None => d end.
Definition get_bool (c : config) (g k : str) (d : bool) : bool := match c g k with Some t => read_bool t | None => d end.
Definition get_int (c : config) (g k : str) (d : Z) : Z := match c g k with Some t => read_int t d | None => d end.
Definition get_list (c : config) (g k : str) (d : list str) : list str := match c g k with Some t => read_list t | None => d end.
Definition put_str (g k : str) (v : str) (c : config) : config := write_text g k v c.
Definition put_bool (g k : str) (v : bool) (c : config) : config := write_text g k (bool_text v) c.
Definition put_int (g k : str) (v : Z) (c : config) : config := write_text g k (number v) c.
Definition put_list (g k : str) (v : list str) (c : config) : config := write_text g k (list_text v) c.

(** diffsettings.cpp 41-73 loadSettings: every member is assigned, so the previous values do not matter. *)
Definition load_settings (c : config) : settings :=
  let g := lit "Diff Options" in
  let h := lit "Exclude File Options" in
  {| st_program := get_str c g (lit "DiffProgram") [];
     st_context := get_int c g (lit "LinesOfContext") 3;
     st_large := get_bool c g (lit "LargeFiles") true;
     st_space := get_bool c g (lit "IgnoreWhiteSpace") false;
     st_all_space := get_bool c g (lit "IgnoreAllWhiteSpace") false;
     st_empty_lines := get_bool c g (lit "IgnoreEmptyLines") false;
     st_tabs := get_bool c g (lit "IgnoreChangesDueToTabExpansion") false;
     st_case := get_bool c g (lit "IgnoreChangesInCase") false;
     st_regexp := get_bool c g (lit "IgnoreRegExp") false;
     st_regexp_text := get_str c g (lit "IgnoreRegExpText") [];
     st_regexp_history := get_list c g (lit "IgnoreRegExpTextHistory") [];
     st_smaller := get_bool c g (lit "CreateSmallerDiff") true;
     st_expand := get_bool c g (lit "ConvertTabsToSpaces") false;
     st_function := get_bool c g (lit "ShowCFunctionChange") false;
     st_recursive := get_bool c g (lit "CompareRecursively") true;
     st_new_files := get_bool c g (lit "NewFiles") true;
     st_format := get_int c g (lit "Format") 4;
     st_patterns := get_bool c h (lit "Pattern") false;
     st_pattern_list := get_list c h (lit "PatternList") [];
     st_file := get_bool c h (lit "File") false;
     st_file_url := get_str c h (lit "FileURL") [];
     st_file_history := get_list c h (lit "FileHistoryList") [] |}.
(** diffsettings.cpp 75-108 saveSettings, entry by entry in the order of the code (sync() is not modelled). *)
Definition save_settings (st : settings) (c : config) : config :=
  let g := lit "Diff Options" in
  let c := put_str g (lit "DiffProgram") (st_program st) c in
  let c := put_int g (lit "LinesOfContext") (st_context st) c in
  let c := put_int g (lit "Format") (st_format st) c in
  let c := put_bool g (lit "LargeFiles") (st_large st) c in
  let c := put_bool g (lit "IgnoreWhiteSpace") (st_space st) c in
  let c := put_bool g (lit "IgnoreAllWhiteSpace") (st_all_space st) c in
  let c := put_bool g (lit "IgnoreEmptyLines") (st_empty_lines st) c in
  let c := put_bool g (lit "IgnoreChangesInCase") (st_case st) c in
  let c := put_bool g (lit "IgnoreChangesDueToTabExpansion") (st_tabs st) c in
  let c := put_bool g (lit "IgnoreRegExp") (st_regexp st) c in
  let c := put_str g (lit "IgnoreRegExpText") (st_regexp_text st) c in
  let c := put_list g (lit "IgnoreRegExpTextHistory") (st_regexp_history st) c in
  let c := put_bool g (lit "CreateSmallerDiff") (st_smaller st) c in
  let c := put_bool g (lit "ConvertTabsToSpaces") (st_expand st) c in
  let c := put_bool g (lit "ShowCFunctionChange") (st_function st) c in
  let c := put_bool g (lit "CompareRecursively") (st_recursive st) c in
  let c := put_bool g (lit "NewFiles") (st_new_files st) c in
  let h := lit "Exclude File Options" in
  let c := put_bool h (lit "Pattern") (st_patterns st) c in
  let c := put_list h (lit "PatternList") (st_pattern_list st) c in
  let c := put_bool h (lit "File") (st_file st) c in
  let c := put_str h (lit "FileURL") (st_file_url st) c in
  put_list h (lit "FileHistoryList") (st_file_history st) c.
