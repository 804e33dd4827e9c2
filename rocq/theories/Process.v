(** Model of KompareProcess (kompareprocess.h, kompareprocess.cpp) up to the start of the program: the command line,
    the working directory and what is written to the program's input. *)
From Coq Require Import String.
From Verif Require Import Base QtStr Settings Parser Info.
Open Scope Z_scope.

(** KProcess (KDE CoreAddons, not in /repo): the program and its arguments. *)
Record kprocess := mk_kp { kp_program : str; kp_args : list str; kp_dir : str; kp_env : list (str * str) }.
(** KProcess::operator<<: the first string appended is the program, the others are arguments. *)
Definition append_arg (a : str) (p : kprocess) : kprocess :=
  match kp_program p with
  | [] => mk_kp a (kp_args p) (kp_dir p) (kp_env p)
  | _ => mk_kp (kp_program p) (kp_args p ++ [a]) (kp_dir p) (kp_env p)
  end.
Notation "p << a" := (append_arg a p) (at level 50, left associativity).
Definition append_if (b : bool) (a : str) (p : kprocess) : kprocess := if b then p << a else p.

(** kompareprocess.cpp 108-210 writeCommandLine, on a platform other than OpenBSD. *)
Definition write_command_line (st : settings) (p : kprocess) : kprocess :=
  let p := match st_program st with [] => p << lit "diff" | _ => p << st_program st end in
  let p := if Z.eqb (st_format st) 4 then p << lit "-U" << number (st_context st)
           else if Z.eqb (st_format st) 0 then p << lit "-C" << number (st_context st)
           else if Z.eqb (st_format st) 3 then p << lit "-n"
           else if Z.eqb (st_format st) 1 then p << lit "-e"
           else if Z.eqb (st_format st) 5 then p << lit "-y"
           else p in
  let p := append_if (st_large st) (lit "-H") p in
  let p := append_if (st_space st) (lit "-b") p in
  let p := append_if (st_all_space st) (lit "-w") p in
  let p := append_if (st_empty_lines st) (lit "-B") p in
  let p := append_if (st_tabs st) (lit "-E") p in
  let p := append_if (st_smaller st) (lit "-d") p in
  let p := append_if (st_case st) (lit "-i") p in
  let p := if (st_regexp st && negb (Nat.eqb (length (st_regexp_text st)) 0))%bool
           then p << lit "-I" << st_regexp_text st else p in
  let p := append_if (st_function st) (lit "-p") p in
  let p := append_if (st_expand st) (lit "-t") p in
  let p := append_if (st_recursive st) (lit "-r") p in
  let p := append_if (st_new_files st) (lit "-N") p in
  let p := if st_patterns st then fold_left (fun p it => p << lit "-x" << it) (st_pattern_list st) p else p in
  if (st_file st && negb (Nat.eqb (length (st_file_url st)) 0))%bool
  then p << lit "-X" << st_file_url st else p.
(** 97-106 writeDefaultCommandLine; the settings pointer is tested for null and then dereferenced all the same. *)
Definition write_default_command_line (st : option settings) (p : kprocess) : res kprocess :=
  let p := match st with
           | None => p << lit "diff" << lit "-dr"
           | Some x => match st_program x with [] => p << lit "diff" << lit "-dr" | _ => p << st_program x << lit "-dr" end
           end in
  match st with
  | None => UB "null DiffSettings pointer"
  | Some x => Ok (p << lit "-U" << number (st_context x))
  end.

(** QUrl of a text that is nothing but a path: no scheme, host, query, fragment or percent sign. Such a text starts
    with a slash, and not with two. *)
Definition plain (s : str) : bool :=
  (match s with
   | c :: d :: _ => N.eqb c SLASH && negb (N.eqb d SLASH)
   | [c] => N.eqb c SLASH
   | [] => false
   end && forallb (fun c => negb (N.eqb c 63 || N.eqb c 35 || N.eqb c 37)) s)%bool.
(** QUrl::isParentOf for two such texts. *)
Definition is_parent_of (a b : str) : bool :=
  (starts_with a b && Nat.ltb (length a) (length b) &&
   (ends_with_chr SLASH a || match nth_error b (length a) with Some c => N.eqb c SLASH | None => false end))%bool.
(** kompareprocess.cpp 24-48 constructRelativePath. An empty [from] is an invalid url. The parent (KIO::upUrl) of a url
    without scheme is invalid, so for paths the loop runs at most once. [other] stands for what QUrl and KIO make of
    texts that are not plain paths. *)
Definition construct_relative_path (other : str -> str -> str) (from to : str) : str :=
  match from with
  | [] => to
  | _ => if (plain from && plain to)%bool then
           if is_parent_of from to then skipn (length from) to else to
         else other from to
  end.

(** KompareProcess: 51-95, the constructor. [pr_mode] and [pr_custom] are m_mode and m_customString. *)
Record process := mk_process { pr_kp : kprocess; pr_mode : mode; pr_custom : str }.
Definition new_process (other : str -> str -> str) (st : option settings) (dm : diff_mode) (source destination dir : str) (md : mode) : res process :=
  let p := mk_kp [] [] [] [(lit "LANG", lit "C")] in
  do p <- (match dm with
           | DefaultDiffMode => write_default_command_line st p
           | _ => match st with None => UB "null DiffSettings pointer" | Some x => Ok (write_command_line x p) end
           end);
  let p := match dir with [] => p | _ => mk_kp (kp_program p) (kp_args p) dir (kp_env p) end in
  let p := p << lit "--" in
  let '(p, custom) := match md with
                      | ComparingStringFile => (p << lit "-", source)
                      | _ => (p << construct_relative_path other dir source, [])
                      end in
  let '(p, custom) := match md with
                      | ComparingFileString => (p << lit "-", destination)
                      | _ => (p << construct_relative_path other dir destination, custom)
                      end in
  Ok (mk_process p md custom).
(** 230-247 start: the text written to the program's standard input before it is closed (its encoding to bytes is not
    modelled). *)
Definition input_text (p : process) : str :=
  match pr_mode p with
  | ComparingStringFile | ComparingFileString => pr_custom p
  | _ => []
  end.
(** modellist.cpp 159-174 compare(mode): the process it starts. [st] is the list's settings pointer. *)
Definition compare_process (other : str -> str -> str) (st : option settings) (i : info) (md : mode) : res process :=
  new_process other st CustomDiffMode (in_local_source i) (in_local_destination i) [] md.
(** modellist.cpp 510-534 saveDiff: the process it starts. *)
Definition save_diff_process (other : str -> str -> str) (st : option settings) (i : info) (directory : str) : res process :=
  new_process other st CustomDiffMode (in_local_source i) (in_local_destination i) directory UnknownMode.
