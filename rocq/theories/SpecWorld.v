(** Specification of what is on disk while a user works with the list. *)
From Verif Require Import Base QtStr Diff Save Blend SpecPatch SpecUnified SpecWorkflow Info ModelList SpecList World.
Local Open Scope Z_scope.

(** The text at a url; a file that is not there is taken as empty. *)
Definition text_at (f : files) (url : str) : str := match f url with Some t => t | None => [] end.
(** The text A with the changes worked in, but for those that [old] keeps out. *)
Definition mixture (A : list str) (hs : list uhunk) (old : list bool) (text : str) : Prop :=
  exists R, in_part 1 old A hs R /\ text = concat R.
(** The file a source name stands for when directories were compared (modellist.cpp 848-866), and its text. *)
Definition source_text (o : outside) (url name : str) : str :=
  let name := if starts_with url name then name else os_path o url name in
  if os_exists o name then os_read o name else [].
(** Where the file of a patch is when directories are compared: the name in the patch, with the destination url for the local
    directory; the local directory ends, or the rest begins, with a slash. *)
Definition place (i : info) (p : upatch) (url : str) : Prop :=
  exists rel, unescape_path (up_new p) = in_local_destination i ++ rel /\ url = in_destination i ++ rel /\
    ((exists l, in_local_destination i = l ++ [SLASH]) \/ exists r, rel = SLASH :: r).
(** The view when the files of a document have been opened, in some order. *)
Definition opened_files (ps : list upatch) (rw : bool) : view :=
  mk_view (map (fun p => (repeat false (all_changes (up_hunks p)), repeat false (all_changes (up_hunks p)))) ps) 0 0 rw.
(** The environment of a save is that of the mode. *)
Definition fits (i : info) (o : lop) : Prop :=
  match o with
  | LSave e => se_dirs e = (match in_mode i with ComparingDirs => true | _ => false end)
  | LSaveAll envs => forall k, se_dirs (envs k) = (match in_mode i with ComparingDirs => true | _ => false end)
  | _ => True
  end.
