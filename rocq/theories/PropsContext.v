(** C24, C51: context diffs. *)
From Coq Require Import String Sorted Permutation.
From Verif Require Import Base QtStr Diff Parser SpecPatch SpecParse SpecText SpecUnified SpecContext PAnyInput PUnifiedPrint PropsUnified PropsNormal PContextDoc.
Local Open Scope Z_scope.

(** Every well-formed context document (diff -c), however many files, hunks and lines: its text is parsed
    without a complaint into one model for each file, with the names, time stamps, hunks, line numbers and
    lines that were printed. *)
Theorem C24_context_documents_read_back :
  forall sort d, (forall l, Permutation (sort l) l) -> cdoc_ok false d ->
  exists o, parse sort (split_lines (cdoc_text d)) = Ok o /\ po_malformed o = false /\ po_format o = Context /\
    exists ms, Permutation (the_models (po_models o)) ms /\ Forall2 cpatch_is (cd_files d) ms.
Proof. intros sort d. exact (context_read false sort d). Qed.
Print Assumptions C24_context_documents_read_back.
(** The same for CVS (cvs diff -c), except that revisions are taken for time stamps. *)
Theorem C24_cvs_context_documents_read_partial :
  forall sort d, (forall l, Permutation (sort l) l) -> cdoc_ok true d ->
  exists o, parse sort (split_lines (cdoc_text d)) = Ok o /\ po_malformed o = false /\ po_format o = Context /\
    exists ms, Permutation (the_models (po_models o)) ms /\ Forall2 cvs_patch_is (cd_files d) ms.
Proof. intros sort d. exact (context_read true sort d). Qed.
Print Assumptions C24_cvs_context_documents_read_partial.

(** Two files; a side left out, a removal, an addition and a change in one hunk, a function. *)
Definition sample_chunks : list chunk :=
  [mk_ch 3 3 (lit "int main()") [Ctx [lit "a"; lit ""]; Chg [] [lit "new"]; Ctx [lit "b"]];
   mk_ch 20 21 [] [Chg [lit "x"; lit "y"] [lit "- z"]; Ctx [lit "c"]; Chg [lit "gone"] []; Ctx [lit "d"]; Chg [] [lit "more"]]].
Definition sample_cdoc : cdoc := mk_cd
  [mk_cp [nl "diff -c a/x b/x"] (lit "a/x") (lit "b/x") (lit "Mon Jan  1 2020") (lit "Tue Jan  2 2020") None None sample_chunks;
   mk_cp [] (lit "old name") (lit "new name") [] [] None None [mk_ch 1 1 [] [Chg [lit "p"] [lit "q"]; Ctx [lit "r"]]]]
  [nl "diff -c other"].
Definition sample_cvs : cdoc := mk_cd
  [mk_cp [nl "Index: x.c"; nl "==================================================================="] (lit "x.c") (lit "x.c")
     (lit "2020/01/01") (lit "2020/01/02") (Some (lit "1.1")) (Some (lit "1.2")) [mk_ch 1 1 [] [Chg [lit "p"] [lit "q"]; Ctx [lit "r"]]]] [].
Lemma sample_chunks_ok : Forall chunk_ok sample_chunks /\ Forall chunk_ok [mk_ch 1 1 [] [Chg [lit "p"] [lit "q"]; Ctx [lit "r"]]].
Proof.
  assert (L : forall s, existsb (N.eqb NL) (lit s) = false -> count (lit s) < 65535 -> line_text (lit s)).
  { intros s H1 H2. split; [|exact H2]. intros I. rewrite (proj2 (existsb_exists _ _) (ex_intro _ NL (conj I eq_refl))) in H1. discriminate. }
  assert (S : forall s, Forall line_text (src_lines s) -> Forall line_text (dst_lines s) -> src_lines s ++ dst_lines s <> [] -> cseg_ok s).
  { intros s H1 H2 H3. split; [exact H1|]. split; [exact H2|]. intros [E1 E2]. apply H3. rewrite E1, E2. reflexivity. }
  split; repeat apply Forall_cons; try apply Forall_nil; split; try (vm_compute; intuition discriminate); cbn [ch_segs].
  all: try (repeat apply Forall_cons; try apply Forall_nil; apply S; cbn [src_lines dst_lines]; repeat apply Forall_cons; try apply Forall_nil; try discriminate;
     apply L; reflexivity).
  all: try (repeat constructor; fail).
  all: first [apply Exists_cons_hd; exact I|apply Exists_cons_tl, Exists_cons_hd; exact I].
Qed.
Lemma begins_no p s : starts_with (lit p) s = false -> ~ begins p s.
Proof. intros H [x E]. rewrite E in H. rewrite (proj2 (PHeaders.starts_with_app _ _) (ex_intro _ x eq_refl)) in H. discriminate. Qed.
Lemma cbetween_nl s : negb (existsb (N.eqb NL) (lit s)) = true -> starts_with (lit "*** ") (nl s) = false ->
     starts_with (lit "==== ") (nl s) = false -> starts_with (lit "\ No newline") (nl s) = false -> cbetween (nl s).
Proof.
  intros H1 H2 H3 H4. split; [exists (lit s); split; [reflexivity|now apply no_nl_lit]|now apply begins_no|now apply begins_no|now apply begins_no].
Qed.
Lemma quiet_nl s : starts_with (lit "*** ") (nl s) = false -> match nl s with c :: d :: _ => is_digit c = false /\ is_digit d = false | _ => False end -> quiet (nl s).
Proof.
  intros H1 H2. split; [now apply begins_no|]. destruct (nl s) as [|c [|d x]]; [destruct H2|destruct H2|]. destruct H2 as [A B]. split.
  - intros c' y E. injection E as <- _. exact A.
  - intros c' d' y E _. injection E as <- <- _. exact B.
Qed.
Lemma name_lit s : lit s <> [] -> existsb (N.eqb TAB) (lit s) = false -> existsb (N.eqb NL) (lit s) = false -> name_ok (lit s).
Proof.
  intros H1 H2 H3. split; [exact H1|]. split; intros I.
  - rewrite (proj2 (existsb_exists _ _) (ex_intro _ TAB (conj I eq_refl))) in H2. discriminate.
  - rewrite (proj2 (existsb_exists _ _) (ex_intro _ NL (conj I eq_refl))) in H3. discriminate.
Qed.
Example C24_example : cdoc_ok false sample_cdoc /\
  cdoc_text sample_cdoc = concat (map nl
   ["diff -c a/x b/x"; "*** a/x	Mon Jan  1 2020"; "--- b/x	Tue Jan  2 2020";
    "*************** int main()"; "*** 3,5 ****"; "--- 3,6 ----"; "  a"; "  "; "+ new"; "  b";
    "***************"; "*** 20,24 ****"; "! x"; "! y"; "  c"; "- gone"; "  d"; "--- 21,24 ----"; "! - z"; "  c"; "  d"; "+ more";
    "*** old name"; "--- new name"; "***************"; "*** 1,2 ****"; "! p"; "  r"; "--- 1,2 ----"; "! q"; "  r"; "diff -c other"]%string).
Proof.
  split; [|vm_compute; reflexivity]. destruct sample_chunks_ok as [K1 K2].
  split.
  - repeat apply Forall_cons; try apply Forall_nil; split; try (vm_compute; intuition discriminate); auto.
    all: cbn [cp_before cp_old cp_new]; first [apply name_lit; [discriminate|reflexivity|reflexivity]|
      repeat apply Forall_cons; try apply Forall_nil; apply cbetween_nl; reflexivity].
  - discriminate.
  - repeat apply Forall_cons; try apply Forall_nil. apply cbetween_nl; reflexivity.
  - intros p ps E. injection E as <- <-. repeat apply Forall_cons; try apply Forall_nil. split; [apply quiet_nl; [reflexivity|vm_compute; auto]|apply begins_no; reflexivity].
  - intros p ps E. injection E as <- <-. repeat apply Forall_cons; try apply Forall_nil.
    + intros l ls E. discriminate.
    + intros l ls E. injection E as <- _. left. eexists. reflexivity.
  - repeat apply Forall_cons; try apply Forall_nil; apply begins_no; reflexivity.
Qed.
Example C24_cvs_example : cdoc_ok true sample_cvs /\
  cdoc_text sample_cvs = concat (map nl
   ["Index: x.c"; "==================================================================="; "*** x.c	2020/01/01	1.1"; "--- x.c	2020/01/02	1.2";
    "***************"; "*** 1,2 ****"; "! p"; "  r"; "--- 1,2 ----"; "! q"; "  r"]%string).
Proof.
  split; [|vm_compute; reflexivity]. destruct sample_chunks_ok as [K1 K2].
  split.
  - repeat apply Forall_cons; try apply Forall_nil; split; try (vm_compute; intuition discriminate); auto.
    all: cbn [cp_before cp_old cp_new]; first [apply name_lit; [discriminate|reflexivity|reflexivity]|
      repeat apply Forall_cons; try apply Forall_nil; apply cbetween_nl; reflexivity].
  - discriminate.
  - apply Forall_nil.
  - intros p ps E. injection E as <- <-. repeat apply Forall_cons; try apply Forall_nil; (split; [apply quiet_nl; [reflexivity|vm_compute; auto]|apply begins_no; reflexivity]).
  - intros p ps E. injection E as <- <-. repeat apply Forall_cons; try apply Forall_nil. intros l ls E. discriminate.
  - apply Exists_cons_hd. eexists. reflexivity.
Qed.
(** So the time stamps of CVS diffs are not those that were printed. *)
Theorem C24_cvs_time_stamps_refuted :
  exists o m, parse (fun l => l) (split_lines (cdoc_text sample_cvs)) = Ok o /\ po_models o = Some [m] /\
    dm_sts m = lit "1.1" /\ dm_dts m = TAB :: lit "1.2" /\ dm_srev m = [] /\ dm_drev m = [].
Proof. vm_compute. eexists _, _. repeat split. Qed.
(** A side of no line or of one line is printed with one number; such a hunk is not read, and with it all that
    follows in the document is lost: a changed one-line file without a complaint (first two cases), a new file
    with one (last case). *)
Theorem C24_one_number_refuted :
  summary (parse (fun l => l) (map nl
    ["*** a"; "--- b"; "***************"; "*** 1 ****"; "! x"; "--- 1 ----"; "! y";
     "*** c"; "--- d"; "***************"; "*** 1,2 ****"; "! p"; "  r"; "--- 1,2 ----"; "! q"; "  r"]%string)) = Some ([], false) /\
  summary (parse (fun l => l) (map nl
    ["*** c"; "--- d"; "***************"; "*** 1,2 ****"; "! p"; "  r"; "--- 1,2 ----"; "! q"; "  r";
     "*** a"; "--- b"; "***************"; "*** 1 ****"; "! x"; "--- 1 ----"; "! y"]%string)) =
    Some ([[(Change, [lit "p"], [lit "q"]); (Unchanged, [lit "r"], [lit "r"])]], false) /\
  summary (parse (fun l => l) (map nl
    ["*** a"; "--- b"; "***************"; "*** 0 ****"; "--- 1,2 ----"; "+ x"; "+ y"]%string)) = Some ([], true).
Proof. repeat split; vm_compute; reflexivity. Qed.
Print Assumptions C24_one_number_refuted.
(** C51. In a context diff the last line of a file without final newline is lost as well. *)
Theorem C51_context_missing_newline_refuted :
  summary (parse (fun l => l) (map nl
    ["*** a"; "--- b"; "***************"; "*** 1,2 ****"; "  r"; "! p"; "--- 1,2 ----"; "  r"; "! q"; "\ No newline at end of file"]%string)) =
    Some ([[(Unchanged, [lit "r"], [lit "r"]); (Change, [lit "p"], [])]], true).
Proof. vm_compute. reflexivity. Qed.
Print Assumptions C24_cvs_time_stamps_refuted.
Print Assumptions C51_context_missing_newline_refuted.
