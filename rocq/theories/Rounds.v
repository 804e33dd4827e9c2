(** Model of working with the same two files again and again: refresh() or swap(), the end of diff, what the user does with the
    list, and the files on disk in between. Composed of the functions of ModelList.v and World.v. *)
From Coq Require Import String.
From Verif Require Import Base QtStr Parser SpecUnified Info ModelList SpecList World SpecWorld.
Local Open Scope Z_scope.

(** readFile (modellist_p.cpp 76-97) reads what is on disk now; the local files are the files of the urls. A file that is not
    there reads as empty. *)
Definition outside_on (o : outside) (f : files) : outside :=
  mk_outside (os_sort o) (text_at f) (os_is_dir o) (os_is_file o) (os_exists o) (os_is_diff o) (os_path o).
(** One round. [ro_swap]: the user exchanges the sides (Info::swapSourceWithDestination, info.cpp 40-60) and calls swap(),
    modellist.cpp 956-965, otherwise refresh(), 948-954. [ro_result]: the document that diff prints, [None] when it ends with 0. *)
Record round := mk_round { ro_swap : bool; ro_result : option udoc; ro_ops : list lop }.
(** slotKompareInfo, swap() or refresh(). *)
Definition start_round (s : mlist) (sw : bool) : res mlist :=
  if sw then do i <- the_info s; swap (slot_kompare_info s (swap_source_with_destination i)) else refresh s.
Definition run_round (o : outside) (s : mlist) (f : files) (r : round) : res (mlist * files) :=
  do s <- start_round s (ro_swap r);
  match ro_result r with
  | Some d =>
      do s <- slot_diff_process_finished (outside_on o f) s (process_success 1 NormalExit) NormalExit (doc_text d) [];
      runs_on s f (ro_ops r)
  | None =>
      do s <- slot_diff_process_finished (outside_on o f) s (process_success 0 NormalExit) NormalExit [] [];
      Ok (s, f)
  end.
Fixpoint run_rounds (o : outside) (s : mlist) (f : files) (rs : list round) : res (mlist * files) :=
  match rs with
  | [] => Ok (s, f)
  | r :: rs' => do q <- run_round o s f r; run_rounds o (fst q) (snd q) rs'
  end.
