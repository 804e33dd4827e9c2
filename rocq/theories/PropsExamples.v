(** Concrete cases that meet the hypotheses of theorems stated elsewhere, for those that have no example beside them. *)
From Coq Require Import String Permutation.
From Verif Require Import PUnifiedDoc PropsUnified PropsRecreate SpecParse SpecUnified SpecWorkflow Base QtStr Lev Diff Save Parser Blend Info ModelList Life Process SpecHistory SpecBlend SpecList PHistory PropsHistory PAnyInput PropsParse PropsWorkflow PropsList PropsWorld PropsLife PropsLifeWorld PropsTyped Memory.
Local Open Scope Z_scope.

(** C14: a text of CVS, one of Perforce, one of neither; what comes later does not matter. *)
Example C14_example :
  map (fun ls => match parse (fun l => l) (map (fun s => lit s ++ [NL]) ls) with Ok o => Some (po_generator o) | _ => None end)
    [["Index: a"; "==== b"]; ["==== b"; "Index: a"]; ["+++ a"; " Index: a"; "@@ -1 +1 @@"]]%string = [Some CVSDiff; Some Perforce; Some DiffDiff].
Proof. vm_compute. reflexivity. Qed.
(** C15: a text that no format fits. *)
Example C15_example : exists o, parse (fun l => l) (map (fun s => lit s ++ [NL]) ["--- a"; "***************"; "1,2c3"; "@@"]%string) = Ok o.
Proof. eexists. vm_compute. reflexivity. Qed.
(** C20, C21: the unified sample of PropsParse.v, malformed, and the two texts of PropsTyped Memory.v. *)
Example C20_example :
  (exists o, parse (fun l => l) sample = Ok o /\ po_format o = Unified /\ length (the_models (po_models o)) = 1%nat) /\
  (exists o, parse (fun l => l) one_sided = Ok o /\ po_format o = Context /\ length (the_models (po_models o)) = 1%nat) /\
  (exists o, parse (fun l => l) bare_addition = Ok o /\ po_format o = Normal /\ length (the_models (po_models o)) = 1%nat).
Proof. repeat split; eexists; (split; [vm_compute; reflexivity|split; reflexivity]). Qed.

(** C28 to C31: the model and history of PropsHistory.v; another history with the same end; direct applying for C28 only. *)
Definition ex_other_ops : list op := [Select 1; ApplySelected true; Select 2; ApplySelected true; ApplySelected false; Select 0; ApplySelected true].
Example C28_example : fresh ex_model ex_ds /\ exists m' ds', SpecHistory.run ex_model ex_ops = Ok m' /\ SpecHistory.listed m' = Ok ds' /\ map d_track ds' = [3; 7; 14] /\ map d_applied ds' = [true; true; false].
Proof. split; [exact ex_fresh|]. eexists _, _. split; [vm_compute; reflexivity|]. repeat split; reflexivity. Qed.
Example C29_example : forallb no_direct ex_ops = true /\ exists m', SpecHistory.run ex_model ex_ops = Ok m' /\ dm_applied m' = 2.
Proof. split; [reflexivity|]. eexists. split; [vm_compute; reflexivity|reflexivity]. Qed.
Example C30_example : exists m' ds', SpecHistory.run ex_model ex_ops = Ok m' /\ SpecHistory.listed m' = Ok ds' /\ map d_unsaved ds' = [false; true; false] /\ has_unsaved m' = Ok true.
Proof. eexists _, _. split; [vm_compute; reflexivity|]. repeat split; reflexivity. Qed.
Example C31_example : exists s1 s2, abs_run (abs_init 3) ex_ops = Some s1 /\ abs_run (abs_init 3) ex_other_ops = Some s2 /\ f_now s1 = f_now s2 /\ f_saved s1 <> f_saved s2.
Proof. eexists _, _. split; [reflexivity|]. split; [reflexivity|]. split; [reflexivity|]. intros Q. discriminate Q. Qed.

(** C39: the model of C36_example, blended: its hunks are others, what recreateDiff() prints is the same. *)
Example C39_example : exists m hs mb, links m hs /\ blend_file m (concat sample_old) = Ok mb /\ recreate_diff mb = recreate_diff m.
Proof.
  destruct C36_example as (m & hs & ds & L & CS & T & F & H1 & H2).
  destruct C55_example as (_ & _ & LT).
  destruct (PropsBlend.C36_blending_completes m hs _ _ _ L LT T) as (mb & out & B & LB & FI & _).
  exists m, hs, mb. split; [exact L|]. split; [exact B|]. exact (PropsBlend.C39_recreated_diff_unchanged _ _ _ _ L B).
Qed.
(** C38, C89: that file, one change applied: a save whose write fails says so, one that succeeds writes. *)
Example C38_example :
  (do o <- parse (fun l => l) (split_lines (doc_text canonical_doc));
   match the_models (po_models o) with
   | [m] => do m <- SpecHistory.run m [Select 1; ApplySelected true];
            do a <- save_destination (mk_save_env true false true false true true true) m;
            do b <- save_destination good m;
            Ok (has_unsaved m, so_ret a, so_written a, so_ret b, match so_written b with Some _ => true | None => false end)
   | _ => UB ""
   end) = Ok (Ok true, false, None, true, true).
Proof. vm_compute. reflexivity. Qed.

(** C41, C43, C44, C58, C59: the list of C40_example: two files, three differences. *)
Example C41_example : exists s, slot_next_model three = Ok s /\ exists s', slot_previous_model s = Ok s' /\ ml_index s = 1 /\ ml_index s' = 0.
Proof. eexists. split; [vm_compute; reflexivity|]. eexists. split; [vm_compute; reflexivity|]. split; reflexivity. Qed.
Example C43_example : (exists v, vrun three_view [LNextFile; LPrevious; LActApply; LReadWrite false] = Some v) /\ refreshes LActApply = true /\
  (do s <- run_lops three [LActApply]; Ok (ac_next (ml_act s), ac_previous (ml_act s), ac_save (ml_act s))) = Ok (true, true, true).
Proof. split; [eexists; reflexivity|]. split; [reflexivity|]. vm_compute. reflexivity. Qed.
Example C58_example : (do s <- run_lops three [LActApply]; do t <- slot_save good s; Ok (ac_save (ml_act s), ac_save (ml_act t))) = Ok (true, false).
Proof. vm_compute. reflexivity. Qed.
Example C59_example : (exists v, vstep three_view LNextFile = Some v) /\ moves LNextFile = true.
Proof. split; [eexists; reflexivity|reflexivity]. Qed.

(** C72: a string of two markers whose copy cannot be destroyed too; one of none whose copy can. *)
Example C72_example : (do h <- destroy_string (fun _ => true) (copy_string (mk_so [] [] 0 [])); destroy_string h (mk_so [] [] 0 [])) = Ok (fun _ => true).
Proof. reflexivity. Qed.
