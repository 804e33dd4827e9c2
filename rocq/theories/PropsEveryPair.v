(** Every two different files have a well-formed unified diff: C36, C37, C55 and C79 speak about every pair of files. *)
From Coq Require Import String Sorted Permutation.
From Verif Require PropsText.
From Verif Require Import Base QtStr Diff SpecText SpecPatch SpecParse SpecUnified SpecWorkflow.
Local Open Scope Z_scope.

(** A file whose lines the line splitter of a diff can read, and whose line numbers are C++ ints. *)
Definition usual_file (ls : list str) : Prop :=
  Forall (fun l => (N.of_nat (length l) < 65534)%N) ls /\ count ls <= 2147483647.
(** The coarsest diff: one hunk that replaces everything. *)
Definition replace_all (A B : list str) : uhunk := mk_uh 1 1 false false [] [Chg A B].
Definition coarse (n1 n2 t1 t2 : str) (A B : list str) : udoc :=
  mk_ud [mk_up [] n1 n2 t1 t2 None None [replace_all A B]] [].

Lemma text_lines text ls : lines_of_text text ls -> Forall (fun l => (N.of_nat (length l) < 65534)%N) ls -> Forall text_line ls.
Proof.
  intros LT SH. rewrite Forall_forall in *. intros l IN. specialize (SH l IN). pose proof (lt_newline _ _ LT l) as NLs.
  assert (D : In NL l \/ ~ In NL l) by (destruct (in_dec N.eq_dec NL l); auto).
  destruct D as [Y|Y].
  - destruct (in_split NL l Y) as (t & post & E). pose proof (NLs _ _ IN E) as ->. exists t. split; [|split; [right; exact E|exact SH]].
    intros X. destruct (in_split NL t X) as (t1 & t2 & ->). assert (E2 : l = t1 ++ NL :: (t2 ++ [NL])) by (rewrite E, <- app_assoc; reflexivity).
    pose proof (NLs _ _ IN E2) as Z. destruct t2; discriminate.
  - exists l. split; [exact Y|split; [left; reflexivity|exact SH]].
Qed.

(** Whatever the two files and their names: there is a well-formed diff that turns one into the other. *)
Theorem C55_every_two_files :
  forall ta tb A B n1 n2 t1 t2, lines_of_text ta A -> lines_of_text tb B -> ta <> tb -> usual_file A -> usual_file B ->
  name_ok n1 -> name_ok n2 -> stamp_ok t1 None -> stamp_ok t2 None ->
  doc_ok (coarse n1 n2 t1 t2 A B) /\ patches true 1 1 A B [replace_all A B].
Proof.
  intros ta tb A B n1 n2 t1 t2 LA LB NE [SA CA] [SB CB] N1 N2 T1 T2.
  split.
  - assert (HO : hunk_ok (replace_all A B)).
    { constructor; cbn; unfold src_count, dst_count; cbn; rewrite ?app_nil_r; unfold fits_int; try lia; auto.
      constructor; [|constructor]. split; [|split]; cbn; [eapply text_lines; eauto|eapply text_lines; eauto|].
      intros [-> ->]. apply NE. rewrite <- (lt_whole _ _ LA), <- (lt_whole _ _ LB). reflexivity. }
    constructor; cbn.
    + constructor; [|constructor]. constructor; cbn; auto. left. left. exact I.
    + discriminate.
    + constructor.
    + intros p ps E. injection E as <- <-. constructor.
    + intros p ps E. injection E as <- <-. cbn. constructor; [|constructor]. intros; discriminate.
    + intros p ps E. injection E as <- <-. intros _. constructor.
  - cbn. assert (X : patches true 1 1 ([] ++ concat (map src_lines [Chg A B]) ++ []) ([] ++ concat (map dst_lines [Chg A B]) ++ []) [replace_all A B]).
    { apply (pt_hunk true 1 1 [] [] [] (replace_all A B) []); cbn; [discriminate|reflexivity|reflexivity|]. apply (pt_end _ _ _ []). }
    cbn in X. rewrite !app_nil_r in X. exact X.
Qed.
Print Assumptions C55_every_two_files.

(** The hypotheses are met: an empty file and one without a final newline. *)
Definition new_text : list str := [lit "a" ++ [NL]; lit "b"].
Example C55_two_files_example :
  doc_ok (coarse (lit "old") (lit "new") [] [] [] new_text) /\ patches true 1 1 [] new_text [replace_all [] new_text] /\
  doc_text (coarse (lit "old") (lit "new") [] [] [] new_text) =
    lit "--- old" ++ [NL] ++ lit "+++ new" ++ [NL] ++ lit "@@ -0,0 +1,2 @@" ++ [NL] ++ lit "+a" ++ [NL] ++ lit "+b" ++ [NL] ++ no_newline_line.
Proof.
  assert (X : doc_ok (coarse (lit "old") (lit "new") [] [] [] new_text) /\ patches true 1 1 [] new_text [replace_all [] new_text]).
  { apply (C55_every_two_files [] (concat new_text)).
    - constructor; [reflexivity|apply Forall_nil|intros l pre post H; destruct H|intros pre l post E; destruct pre; discriminate E].
    - apply PropsText.C01_split_lossless. vm_compute. reflexivity.
    - discriminate.
    - split; [constructor|unfold count; cbn; lia].
    - split; [repeat constructor; vm_compute; reflexivity|unfold count; cbn; lia].
    - split; [discriminate|split; intros H; vm_compute in H; intuition discriminate].
    - split; [discriminate|split; intros H; vm_compute in H; intuition discriminate].
    - split; [|split]; cbn; auto.
    - split; [|split]; cbn; auto. }
  destruct X as [X Y]. split; [exact X|]. split; [exact Y|]. vm_compute. reflexivity.
Qed.
