(** Model of Info (info.h 28-58, info.cpp). *)
From Verif Require Import Base Parser.

(** global.h 46-55. *)
Inductive mode :=
  ComparingFiles | ComparingFileString | ComparingStringFile | ComparingDirs | ShowingDiff | BlendingDir | BlendingFile | UnknownMode.
(** global.h 60-64. *)
Inductive diff_mode := DefaultDiffMode | CustomDiffMode | UnknownDiffMode.
(** info.h 46-57. Urls are kept as their text; a QTemporaryDir pointer is a number or null. The generator is
    unknown until a diff has been parsed. *)
Record info := mk_info {
  in_mode : mode; in_diff_mode : diff_mode; in_format : format; in_generator : option generator;
  in_source : str; in_destination : str; in_local_source : str; in_local_destination : str;
  in_source_temp : option nat; in_destination_temp : option nat;
  in_depth : nat; in_applied : bool }.
(** info.h 31-42: the default arguments. *)
Definition default_info : info :=
  mk_info UnknownMode UnknownDiffMode UnknownFormat None [] [] [] [] None None 0 true.
(** info.cpp 39-52 swapSourceWithDestination: three exchanges through a temporary, statement by statement. *)
Definition with_urls (i : info) (s d : str) : info :=
  mk_info (in_mode i) (in_diff_mode i) (in_format i) (in_generator i) s d (in_local_source i) (in_local_destination i)
    (in_source_temp i) (in_destination_temp i) (in_depth i) (in_applied i).
Definition with_locals (i : info) (s d : str) : info :=
  mk_info (in_mode i) (in_diff_mode i) (in_format i) (in_generator i) (in_source i) (in_destination i) s d
    (in_source_temp i) (in_destination_temp i) (in_depth i) (in_applied i).
Definition with_temps (i : info) (s d : option nat) : info :=
  mk_info (in_mode i) (in_diff_mode i) (in_format i) (in_generator i) (in_source i) (in_destination i)
    (in_local_source i) (in_local_destination i) s d (in_depth i) (in_applied i).
Definition swap_source_with_destination (i : info) : info :=
  let url := in_source i in
  let i := with_urls i (in_destination i) (in_destination i) in
  let i := with_urls i (in_source i) url in
  let string := in_local_source i in
  let i := with_locals i (in_local_destination i) (in_local_destination i) in
  let i := with_locals i (in_local_source i) string in
  let tmp := in_source_temp i in
  let i := with_temps i (in_destination_temp i) (in_destination_temp i) in
  with_temps i (in_source_temp i) tmp.
(** Assignments to mode, and to generator and format (modellist.cpp 810-811). *)
Definition with_mode (i : info) (m : mode) : info :=
  mk_info m (in_diff_mode i) (in_format i) (in_generator i) (in_source i) (in_destination i)
    (in_local_source i) (in_local_destination i) (in_source_temp i) (in_destination_temp i) (in_depth i) (in_applied i).
Definition with_parsed (i : info) (g : generator) (f : format) : info :=
  mk_info (in_mode i) (in_diff_mode i) f (Some g) (in_source i) (in_destination i)
    (in_local_source i) (in_local_destination i) (in_source_temp i) (in_destination_temp i) (in_depth i) (in_applied i).
