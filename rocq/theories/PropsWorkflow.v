(** C55: from the text of a diff and of a file to the text that is saved. *)
From Coq Require Import String Sorted Permutation.
From Verif Require Import Base QtStr Diff Save Parser SpecHistory SpecPatch SpecParse SpecText SpecUnified Blend SpecBlend SpecWorkflow PAnyInput PHistory PBlend PSave PropsUnified PropsRecreate PropsBlend PWorkflow.
Local Open Scope Z_scope.

(** Read any well-formed unified diff; take any of its files whose hunks turn A into B; apply, unapply and save
    at will, blend A at any moment, go on, and save: what is written is A with the changes that are not
    applied worked in; B if none is applied, the very text of A if all are. *)
Theorem C55_parse_blend_edit_save :
  forall sort d p text A B, (forall l, Permutation (sort l) l) -> doc_ok d -> In p (ud_files d) ->
  lines_of_text text A -> patches true 1 1 A B (up_hunks p) ->
  exists o m, parse sort (split_lines (doc_text d)) = Ok o /\ po_malformed o = false /\ In m (the_models (po_models o)) /\ patch_is p m /\
  forall ops1 s1 ops2 s2 e, abs_run (abs_init (all_changes (up_hunks p))) ops1 = Some s1 -> abs_run s1 ops2 = Some s2 ->
  exists m1 mb m2 out R,
    run m ops1 = Ok m1 /\ blend_file m1 text = Ok mb /\ run mb ops2 = Ok m2 /\ save_destination e m2 = Ok out /\
    in_part 1 (f_now s2) A (up_hunks p) R /\
    (save_succeeds e = true -> f_now s2 <> f_saved s2 -> so_ret out = true /\ so_error out = false /\ so_written out = Some (concat R)) /\
    (f_now s2 = f_saved s2 -> so_ret out = true /\ so_error out = false /\ so_written out = None) /\
    ((forall f, In f (f_now s2) -> f = false) -> R = B) /\ ((forall f, In f (f_now s2) -> f = true) -> R = A /\ concat R = text).
Proof.
  intros sort d p text A B HP OK IP LT PA. destruct (C16_unified_documents_read_back sort d HP OK) as (o & E & MF & _ & ms & PM & F).
  assert (X : exists m, In m ms /\ patch_is p m).
  { clear -F IP. induction F as [|q m ps ms H F IH]; [destruct IP|]. destruct IP as [->|IP]; [exists m; split; [left; reflexivity|exact H]|].
    destruct (IH IP) as (m' & I & Q). exists m'. split; [right; exact I|exact Q]. }
  destruct X as (m & IM & PI). exists o, m. split; [exact E|]. split; [exact MF|]. split; [eapply Permutation_in; [symmetry; exact PM|exact IM]|]. split; [exact PI|].
  intros ops1 s1 ops2 s2 e A1 A2. assert (PO : patch_ok p) by (pose proof (do_files d OK) as Q; rewrite Forall_forall in Q; auto).
  destruct (patch_fresh p m PO PI A B PA) as (hs & L & CS & FH & T & FR & LN). rewrite <- LN in A1.
  destruct (C37_saved_text_after_any_history m _ hs text A B ops1 ops2 s1 s2 e FR L CS LT T A1 A2) as (m1 & mb & m2 & out & R & E1 & E2 & E3 & E4 & PR & W & NW & NO & AL).
  exists m1, mb, m2, out, R. repeat (split; [assumption|]). split; [eapply partly_in_part; eauto|]. auto.
Qed.
Print Assumptions C55_parse_blend_edit_save.

(** The hypotheses are met: the file of [canonical_doc] (two hunks, a replacement and an insertion) and a file of 21 lines. *)
Definition sample_old : list str :=
  lines ["1"; "2"; "a"; ""; "b"; "e"; "7"; "8"; "9"; "10"; "11"; "12"; "13"; "14"; "15"; "16"; "17"; "18"; "19"; "x"; "21"]%string.
Definition sample_new : list str :=
  lines ["1"; "2"; "a"; ""; "c"; "d"; "e"; "7"; "8"; "9"; "10"; "11"; "12"; "13"; "14"; "15"; "16"; "17"; "18"; "19"; "x"; "y"; "21"]%string.
Definition sample_hunks : list uhunk := concat (map up_hunks (ud_files canonical_doc)).
Example C55_example : patches true 1 1 sample_old sample_new sample_hunks /\ all_changes sample_hunks = 2%nat /\
  lines_of_text (concat sample_old) sample_old.
Proof.
  split; [|split; [reflexivity|]].
  - assert (K : forall f s t same A B h hs old new, (f = false -> same <> []) -> uh_a h = s + count same -> uh_b h = t + count same ->
      patches false (uh_a h + src_count (uh_segs h)) (uh_b h + dst_count (uh_segs h)) A B hs ->
      old = same ++ concat (map src_lines (uh_segs h)) ++ A -> new = same ++ concat (map dst_lines (uh_segs h)) ++ B ->
      patches f s t old new (h :: hs)) by (intros; subst; now constructor).
    eapply (K _ _ _ (lines ["1"; "2"]%string)); [discriminate|reflexivity|reflexivity| |reflexivity|reflexivity].
    eapply (K _ _ _ (lines ["7"; "8"; "9"; "10"; "11"; "12"; "13"; "14"; "15"; "16"; "17"; "18"; "19"]%string)); [discriminate|reflexivity|reflexivity| |reflexivity|reflexivity].
    constructor.
  - apply PropsText.C01_split_lossless. vm_compute. reflexivity.
Qed.
(** What the model computes for it: with the second change applied, the file that is saved has the first only. *)
Definition good : save_env := mk_save_env true true true false true true true.
Example C55_computed :
  (do o <- parse (fun l => l) (split_lines (doc_text canonical_doc));
   match the_models (po_models o) with
   | [m] => do m <- run m [Select 1; ApplyAll true]; do m <- blend_file m (concat sample_old);
            do m <- run m [ApplyDirect 0 false]; do out <- save_destination good m; Ok (so_written out)
   | _ => UB ""
   end) =
  Ok (Some (concat (lines ["1"; "2"; "a"; ""; "c"; "d"; "e"; "7"; "8"; "9"; "10"; "11"; "12"; "13"; "14"; "15"; "16"; "17"; "18"; "19"; "x"; "21"]%string))).
Proof. vm_compute. reflexivity. Qed.
(** The hypotheses of C36, C37, C38 and C39 are met by the model of that file. *)
Example C36_example : exists m hs ds, links m hs /\ context_same hs /\ turns 1 1 sample_old sample_new hs /\ fresh m ds /\ length hs = 2%nat /\ length ds = 2%nat.
Proof.
  destruct C17_example as [OK _]. destruct C55_example as (P & N & LT).
  destruct (C16_unified_documents_read_back (fun l => l) canonical_doc (fun l => Permutation_refl l) OK) as (o & _ & _ & _ & ms & _ & F).
  pose proof (do_files _ OK) as PO. unfold canonical_doc in F, PO. cbn [ud_files] in F, PO. inversion_clear PO as [|? ? PO' _].
  inversion F as [|? m ? ms' PI F']. subst. set (p := mk_up _ _ _ _ _ _ _ _) in *.
  assert (E : up_hunks p = sample_hunks) by reflexivity.
  rewrite <- E in P, N. destruct (patch_fresh p m PO' PI _ _ P) as (hs & L & CS & FH & T & FR & LN).
  exists m, hs, (filter (fun d => negb (is_context d)) (all_diffs hs)). repeat (split; [assumption|]). split; [|congruence].
  change (length hs = length sample_hunks). rewrite <- E. clear -FH. induction FH; cbn; congruence.
Qed.

(** C56: the same for normal and context diffs is false. *)
Definition session (diff file : list string) (ops : list op) : res (list (option str)) :=
  do o <- parse (fun l => l) (map nl diff);
  (fix each ms := match ms with
                  | [] => Ok []
                  | m :: ms' => do m <- blend_file m (concat (map nl file)); do m <- run m ops;
                                do out <- save_destination good m; do r <- each ms'; Ok (so_written out :: r)
                  end) (the_models (po_models o)).
Lemma session_unified : session ["--- a	1"; "+++ b	2"; "@@ -1,3 +1,3 @@"; " 1"; "-2"; "+x"; " 3"]%string ["1"; "2"; "3"]%string [ApplyAll true] =
  Ok [Some (concat (lines ["1"; "2"; "3"]%string))].
Proof. vm_compute. reflexivity. Qed.
(** A change of the second of three lines, applied: the file that is saved should have the old lines. The lines
    of a normal or context diff lose their newline. Lines added after line 2 are saved before it. *)
Theorem C56_saving_other_formats_refuted :
  session ["2c2"; "< 2"; "---"; "> x"]%string ["1"; "2"; "3"]%string [ApplyAll true] = Ok [Some (concat (lines ["1"; "23"]%string))] /\
  session ["*** a	1"; "--- b	2"; "***************"; "*** 1,3 ****"; "  1"; "! 2"; "  3"; "--- 1,3 ----"; "  1"; "! x"; "  3"]%string
    ["1"; "2"; "3"]%string [ApplyAll true] = Ok [Some (lit "123")] /\
  session ["1c1"; "< 1"; "---"; "> 0"; "2a3,4"; "> x"; "> y"]%string ["1"; "2"; "3"]%string [ApplyDirect 0 true] =
    Ok [Some (concat (lines ["1xy2"; "3"]%string))].
Proof. split; [|split]; vm_compute; reflexivity. Qed.
Print Assumptions C56_saving_other_formats_refuted.
