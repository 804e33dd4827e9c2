(** How diff reads its command line, which options the settings ask for, and what a file operand means. *)
From Coq Require Import String.
From Verif Require Import Base Settings.
Open Scope Z_scope.

(** The one-letter options of GNU diff that take an argument (diffutils, src/diff.c, shortopts). *)
Definition takes_argument (c : chr) : bool := existsb (N.eqb c) (lit "CDFILSUWxX").
(** POSIX utility conventions (getopt, with operands and options mixed as GNU getopt allows). [waiting] is an option
    whose argument is the next string of the command line, whatever that string is. *)
Fixpoint letters (s : str) : list (chr * option str) * option chr :=
  match s with
  | [] => ([], None)
  | c :: s' =>
      if takes_argument c then
        match s' with
        | [] => ([], Some c)
        | _ => ([(c, Some s')], None)
        end
      else let '(os, w) := letters s' in ((c, None) :: os, w)
  end.
Fixpoint getopt (waiting : option chr) (args : list str) : option (list (chr * option str) * list str) :=
  match args, waiting with
  | [], None => Some ([], [])
  | [], Some _ => None
  | a :: args', Some c =>
      match getopt None args' with
      | Some (os, fs) => Some ((c, Some a) :: os, fs)
      | None => None
      end
  | a :: args', None =>
      match a with
      | 45%N :: [] => match getopt None args' with Some (os, fs) => Some (os, a :: fs) | None => None end
      | 45%N :: 45%N :: [] => Some ([], args')
      | 45%N :: 45%N :: long => match getopt None args' with Some (os, fs) => Some ((45%N, Some long) :: os, fs) | None => None end
      | 45%N :: s =>
          let '(os1, w) := letters s in
          match getopt w args' with
          | Some (os, fs) => Some (os1 ++ os, fs)
          | None => None
          end
      | _ => match getopt None args' with Some (os, fs) => Some (os, a :: fs) | None => None end
      end
  end.

(** The decimal text of an integer. *)
Fixpoint decimal_value (acc : Z) (s : str) : option Z :=
  match s with
  | [] => Some acc
  | c :: s' => if (N.leb 48 c && N.leb c 57)%N then decimal_value (acc * 10 + (Z.of_N c - 48)) s' else None
  end.
Definition is_decimal (t : str) (n : Z) : Prop :=
  (0 <= n /\ t <> [] /\ decimal_value 0 t = Some n) \/
  (n < 0 /\ exists u, t = 45%N :: u /\ u <> [] /\ decimal_value 0 u = Some (- n)).

(** The options the settings ask for: the letters of diffsettings.h 41-62 and the output formats of diff(1). *)
Inductive wanted (st : settings) : chr -> option str -> Prop :=
| want_unified t : st_format st = 4 -> is_decimal t (st_context st) -> wanted st 85%N (Some t)
| want_context t : st_format st = 0 -> is_decimal t (st_context st) -> wanted st 67%N (Some t)
| want_rcs : st_format st = 3 -> wanted st 110%N None
| want_ed : st_format st = 1 -> wanted st 101%N None
| want_side : st_format st = 5 -> wanted st 121%N None
| want_H : st_large st = true -> wanted st 72%N None
| want_b : st_space st = true -> wanted st 98%N None
| want_w : st_all_space st = true -> wanted st 119%N None
| want_B : st_empty_lines st = true -> wanted st 66%N None
| want_E : st_tabs st = true -> wanted st 69%N None
| want_d : st_smaller st = true -> wanted st 100%N None
| want_i : st_case st = true -> wanted st 105%N None
| want_p : st_function st = true -> wanted st 112%N None
| want_t : st_expand st = true -> wanted st 116%N None
| want_r : st_recursive st = true -> wanted st 114%N None
| want_N : st_new_files st = true -> wanted st 78%N None
| want_I : st_regexp st = true -> st_regexp_text st <> [] -> wanted st 73%N (Some (st_regexp_text st))
| want_x t : st_patterns st = true -> In t (st_pattern_list st) -> wanted st 120%N (Some t)
| want_X : st_file st = true -> st_file_url st <> [] -> wanted st 88%N (Some (st_file_url st)).

(** The path a program running in directory [dir] opens for the operand [f]. *)
Inductive opens (dir : str) : str -> str -> Prop :=
| opens_absolute f : opens dir (SLASH :: f) (SLASH :: f)
| opens_relative d f : (forall t, f <> SLASH :: t) -> dir = d ++ [SLASH] -> opens dir f (dir ++ f)
| opens_relative' d c f : (forall t, f <> SLASH :: t) -> dir = d ++ [c] -> c <> SLASH -> opens dir f (dir ++ SLASH :: f).
