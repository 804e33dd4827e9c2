(** C23, C51, C52: normal diffs. *)
From Coq Require Import String Permutation.
From Verif Require Import Base QtStr Diff Parser SpecPatch SpecParse SpecText SpecUnified SpecNormal PAnyInput PUnifiedPrint PropsUnified PNormalDoc.
Local Open Scope Z_scope.

(** Every printed normal diff of one file, with any number of commands and lines, is read back exactly: one
    model without names, with one hunk and one difference for each command. *)
Theorem C23_normal_diff_read_back :
  forall sort cs, (forall l, Permutation (sort l) l) -> cs <> [] -> Forall cmd_ok cs ->
  exists o m, parse sort (split_lines (concat (concat (map cmd_text cs)))) = Ok o /\ po_malformed o = false /\ po_format o = Normal /\
    po_models o = Some [m] /\ named m [] [] [] [] /\ commands_are cs m.
Proof. exact single_normal. Qed.
Print Assumptions C23_normal_diff_read_back.
Definition sample_cmds : list ncmd :=
  [NAdd 0 1 [lit "new"; lit ""]; NDel 5 7 [lit "> x"]; NChg 8 9 [lit "a"; lit "b"] [lit "---"]].
Example C23_example : Forall cmd_ok sample_cmds /\
  concat (map cmd_text sample_cmds) = map nl ["0a1,2"; "> new"; "> "; "5d7"; "< > x"; "8,9c9"; "< a"; "< b"; "---"; "> ---"]%string.
Proof.
  split; [|vm_compute; reflexivity].
  repeat constructor; try (cbv; intuition congruence).
Qed.

(** C52. A diff of several files ("diff OPTIONS OLD NEW" before the commands of each file, other lines around
    them): every file is read exactly, but the diff is always reported as malformed. *)
Theorem C52_normal_diff_of_files_read_but_malformed :
  forall sort fs after, (forall l, Permutation (sort l) l) -> fs <> [] -> Forall nfile_ok fs -> Forall aside after ->
  exists o ms, parse sort (split_lines (concat (ndoc_lines fs after))) = Ok o /\ po_format o = Normal /\
    Permutation (the_models (po_models o)) ms /\ Forall2 nfile_is fs ms /\ po_malformed o = true.
Proof. exact several_normal. Qed.
Print Assumptions C52_normal_diff_of_files_read_but_malformed.
Definition sample_nfiles : list nfile :=
  [mk_nf [] [lit "-r"; lit "--strip=1"] (lit "a/x") (lit "b/x") [NDel 1 0 [lit "q"]];
   mk_nf [nl "Only in a: y"] [lit "-r"] (lit "a/z") (lit "b/z") [NAdd 3 4 [lit "w"]]].
Example C52_example : Forall nfile_ok sample_nfiles /\
  ndoc_lines sample_nfiles [] = map nl ["diff -r --strip=1 a/x b/x"; "1d0"; "< q"; "Only in a: y"; "diff -r a/z b/z"; "3a4"; "> w"]%string.
Proof.
  split; [|vm_compute; reflexivity].
  assert (B : forall p s, starts_with (lit p) s = false -> ~ begins p s).
  { intros p s H [x E]. rewrite E in H. rewrite (proj2 (PHeaders.starts_with_app _ _) (ex_intro _ x eq_refl)) in H. discriminate. }
  assert (O : forall o x, o = lit "-" ++ x \/ o = lit "--" ++ x -> x <> [] -> forallb Patterns.option_chr x = true -> diff_option o).
  { intros o x E N F. exists x. split; [exact N|]. split; [now apply option_classes|exact E]. }
  assert (N : forall s, lit s <> [] -> existsb (N.eqb SP) (lit s) = false -> existsb (N.eqb NL) (lit s) = false -> plain_name (lit s)).
  { intros s H1 H2 H3. split; [exact H1|]. split; intros I.
    - rewrite (proj2 (existsb_exists _ _) (ex_intro _ SP (conj I eq_refl))) in H2. discriminate.
    - rewrite (proj2 (existsb_exists _ _) (ex_intro _ NL (conj I eq_refl))) in H3. discriminate. }
  repeat apply Forall_cons; try apply Forall_nil.
  - split; cbn [nf_before nf_options nf_old nf_new nf_cmds sample_nfiles].
    + constructor.
    + repeat apply Forall_cons; try apply Forall_nil; [apply (O _ (lit "r"))|apply (O _ (lit "strip=1"))]; auto; discriminate.
    + split; apply N; reflexivity || discriminate.
    + now apply B.
    + repeat constructor; try (cbv; intuition congruence).
    + discriminate.
  - split; cbn [nf_before nf_options nf_old nf_new nf_cmds sample_nfiles].
    + constructor; [|constructor]. split.
      * exists (lit "Only in a: y"). split; [reflexivity|]. apply no_nl_lit. reflexivity.
      * split; [now apply B|]. split; [intros c x E; injection E as <- _; reflexivity|intros c d x E _; injection E as <- <- _; reflexivity].
      * repeat constructor; now apply B.
    + repeat apply Forall_cons; try apply Forall_nil; apply (O _ (lit "r")); auto; discriminate.
    + split; apply N; reflexivity || discriminate.
    + now apply B.
    + repeat constructor; try (cbv; intuition congruence).
    + discriminate.
Qed.
(** The full property (several files, no malformed report) is false; so is the reading of CVS normal diffs: no
    difference at all is found. *)
Definition summary (r : res parse_out) : option (list (list (dtype * list str * list str)) * bool) :=
  match r with
  | Ok o => Some (map (fun m => map (fun d => (d_type d, lines_of (d_slines d), lines_of (d_dlines d))) (dm_store m)) (the_models (po_models o)), po_malformed o)
  | _ => None
  end.
Theorem C52_normal_diff_of_files_refuted :
  (forall sort, (forall l, Permutation (sort l) l) ->
    exists o, parse sort (split_lines (concat (ndoc_lines sample_nfiles []))) = Ok o /\ po_malformed o = true) /\
  summary (parse (fun l => l) (map nl
    ["Index: x.c"; "==================================================================="; "RCS file: /cvs/x.c,v"; "retrieving revision 1.1"; "diff -r1.1 x.c";
     "3c3"; "< a"; "---"; "> b"]%string)) = Some ([], true).
Proof.
  split; [|vm_compute; reflexivity]. intros sort HP.
  destruct (several_normal sort sample_nfiles [] HP) as (o & ms & E & _ & _ & _ & B); [discriminate|apply C52_example|constructor|]. eauto.
Qed.

(** C51. In a normal diff the last line of a file without final newline is lost, and with it, in a change, all
    lines of the new file. *)
Theorem C51_normal_missing_newline_refuted :
  summary (parse (fun l => l) (map nl ["1a2"; "> new"; "\ No newline at end of file"]%string)) = Some ([[(Insert, [], [])]], true) /\
  summary (parse (fun l => l) (map nl ["1c1"; "< old"; "\ No newline at end of file"; "---"; "> new"; "\ No newline at end of file"]%string)) =
    Some ([[(Change, [], [])]], true).
Proof. split; vm_compute; reflexivity. Qed.
Print Assumptions C51_normal_missing_newline_refuted.
Print Assumptions C52_normal_diff_of_files_refuted.
