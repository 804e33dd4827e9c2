(** Specification of what happens to the Info of a ModelList. *)
From Verif Require Import Base QtStr Diff Parser Save Blend Info ModelList Life.

(** compare(): two directories are compared, a directory and a file are a directory and a diff of it; of two files, if exactly one is a diff, it is a diff
    of the other; otherwise they are compared. *)
Definition mode_of_compare (o : outside) (i : info) : mode :=
  match os_is_dir o (in_local_source i), os_is_dir o (in_local_destination i) with
  | true, true => ComparingDirs
  | false, false => if Bool.eqb (os_is_diff o (in_local_source i)) (os_is_diff o (in_local_destination i)) then ComparingFiles else BlendingFile
  | _, _ => BlendingDir
  end.
(** The sides are exchanged when the diff is the source. *)
Definition turns_round (o : outside) (i : info) : bool :=
  match mode_of_compare o i with
  | BlendingDir => os_is_dir o (in_local_destination i)
  | BlendingFile => os_is_diff o (in_local_source i)
  | _ => false
  end.
(** The two sides: urls, local files, temporary directories. *)
Definition source_side (i : info) : str * str * option nat := (in_source i, in_local_source i, in_source_temp i).
Definition destination_side (i : info) : str * str * option nat := (in_destination i, in_local_destination i, in_destination_temp i).
(** The text that is read as a diff, if any. *)
Definition diff_read (o : outside) (i : info) (h : happening) : option str :=
  match h with
  | HOpenDiff (c :: file) => Some (os_read o (c :: file))
  | HParseAndOpen t | HParseOutput t | HFinished true _ t _ => Some t
  | HOpenAndBlend => Some (os_read o (in_local_destination i))
  | HCompare => match mode_of_compare o i with
                | BlendingDir | BlendingFile => Some (os_read o (if turns_round o i then in_local_source i else in_local_destination i))
                | _ => None
                end
  | _ => None
  end.
