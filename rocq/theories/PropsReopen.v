(** C82: a diff that was saved with saveDiff() and is opened again. *)
From Coq Require Import String Permutation.
From Verif Require Import Base QtStr Diff Parser Settings Info Process SaveDiff ModelList Codec SpecCodec SpecPatch SpecParse SpecText SpecUnified SpecList
  PAnyInput PList PListOpen PropsParse PropsUnified PropsProcess PropsList PropsCodec PropsNormal.
Local Open Scope Z_scope.

Lemma output_read cs bytes text : encoded utf8_of cs bytes -> encoded utf16_of cs text -> no_mark cs -> process_output utf8 bytes = text.
Proof. intros U V M. unfold process_output. destruct (decode_text cs _ _ false U V (or_intror M)) as (d & E). cbn [cd_start utf8]. now rewrite E. Qed.
(** diff prints the bytes of a unified document, in UTF-8, and the target is new. The file that is written has these very bytes; and
    when it is opened, in whatever blocks it is read and whatever the list showed before, the list shows without a complaint
    one model for each file of the document, with the names, hunks and lines that were printed; nothing is applied or
    unsaved, and the first difference of the first file is selected. *)
Theorem C82_saved_diff_reopened :
  forall other i w url dir st w1 w2 d cs bytes,
    wr_files w url = None -> doc_ok d -> encoded utf16_of cs (doc_text d) -> encoded utf8_of cs bytes -> no_mark cs ->
    save_diff other true i w url dir st = Ok (w1, true) ->
    slot_write_diff_output true w1 true (process_output utf8 bytes) = Ok w2 ->
    exists text, wr_files w2 url = Some text /\ write_text text = bytes /\
      forall o s file blocks j, (forall l, Permutation (os_sort o l) l) -> ml_info s = Some j -> file <> [] ->
        concat blocks = write_text text -> os_read o file = read_file utf8 (Some blocks) ->
        exists s1 read ms, open_diff o s file = Ok (s1, true) /\
          Permutation read ms /\ Forall2 patch_is (ud_files d) read /\
          holds s1 (fun k y => exists x, nth_error ms k = Some x /\ sel_only x y) (length ms) /\
          observed s1 (opened ms false (ml_rw s)) /\ ~ In (Error Malformed) (skipn (length (ml_out s)) (ml_out s1)).
Proof.
  intros other i w url dir st w1 w2 d cs bytes F OK V U M S W.
  destruct (C61_written _ _ _ _ _ _ _ _ _ F S W) as (E & _ & _). exists (process_output utf8 bytes).
  pose proof (output_read _ _ _ U V M) as PO. split; [exact E|]. rewrite PO. pose proof (utf8_unique _ _ _ (write_ok _ _ V) U) as EB. split; [exact EB|].
  intros o s file blocks j HP I FN CB OR. rewrite EB in CB. rewrite (C73_utf8_is_read _ _ _ _ U V M CB) in OR.
  destruct (C16_unified_documents_read_back (os_sort o) d HP OK) as (p & EP & MF & _ & ms0 & PM & F2).
  destruct (po_models p) as [ms|] eqn:PMS.
  2:{ exfalso. cbn in PM. apply Permutation_nil in PM. subst ms0. destruct OK. inversion F2; subst. destruct (ud_files d); [contradiction|discriminate]. }
  destruct (parse_and_open_ok o s (doc_text d) p ms j (conj HP (conj EP PMS)) I) as (s1 & E1 & S1 & _ & H1 & _ & _ & _ & MA & _).
  exists s1, ms0, ms. unfold open_diff. destruct file as [|c file]; [congruence|]. rewrite OR. split; [exact E1|].
  split; [apply Permutation_sym; exact PM|]. split; [exact F2|]. split; [exact H1|]. split; [now apply observed_ok|].
  rewrite MA, MF. discriminate.
Qed.
Print Assumptions C82_saved_diff_reopened.
(** Hypotheses: the sample document of C16 (three hunks, two files), saved to a new file. *)
Lemma ascii_encoded t : Forall (fun c => (c < 128)%N) t -> encoded utf8_of t t /\ encoded utf16_of t t.
Proof.
  induction 1 as [|c t H F [IH1 IH2]]; [split; constructor|]. assert (SC : scalar c) by (unfold scalar; lia).
  split; [apply (en_cons _ c t [c] t)|apply (en_cons _ c t [c] t)]; auto; [now apply u8_1|apply u16_1; lia].
Qed.
Definition empty_disk : writer := mk_writer false [] None (fun _ => None) [].
Example C82_example :
  doc_ok sample_doc /\ encoded utf16_of (doc_text sample_doc) (doc_text sample_doc) /\ encoded utf8_of (doc_text sample_doc) (doc_text sample_doc) /\
  no_mark (doc_text sample_doc) /\
  exists w1 w2, save_diff (fun a b => b) true default_info empty_disk (lit "file:/tmp/x.diff") (lit "/tmp/") (Some fresh_settings) = Ok (w1, true) /\
    slot_write_diff_output true w1 true (process_output utf8 (doc_text sample_doc)) = Ok w2.
Proof.
  assert (A : Forall (fun c => (c < 128)%N) (doc_text sample_doc)).
  { apply Forall_forall. intros c I. apply N.ltb_lt. revert c I. apply (proj1 (forallb_forall (fun c => N.ltb c 128) _)). vm_compute. reflexivity. }
  split; [exact (proj1 C16_example)|]. split; [now apply ascii_encoded|]. split; [now apply ascii_encoded|]. split.
  - intros x E. rewrite E in A. inversion_clear A as [|? ? L _]. lia.
  - eexists _, _. split; reflexivity.
Qed.
(** False of the code for another encoding: the file is written in UTF-8 and read in that encoding. In Latin-1 the text that is read is
    not the one that was saved, and neither are the bytes. *)
Definition accented : list N := (concat (map nl ["--- a	1"; "+++ b	2"; "@@ -1,1 +1,1 @@"; "-x"]%string) ++ [43; 233; 10])%N.
Theorem C82_other_encoding_refuted :
  exists w1 w2 text, save_diff (fun a b => b) true default_info empty_disk (lit "file:/tmp/x.diff") (lit "/tmp/") (Some fresh_settings) = Ok (w1, true) /\
    slot_write_diff_output true w1 true (process_output latin1 accented) = Ok w2 /\
    wr_files w2 (lit "file:/tmp/x.diff") = Some text /\ text = accented /\
    write_text text <> accented /\ read_file latin1 (Some [write_text text]) <> text /\
    summary (parse (fun l => l) (split_lines text)) = Some ([[(Change, [lit "x" ++ [NL]], [[233; 10]%N])]], false) /\
    summary (parse (fun l => l) (split_lines (read_file latin1 (Some [write_text text])))) = Some ([[(Change, [lit "x" ++ [NL]], [[195; 169; 10]%N])]], false).
Proof. eexists _, _, _. split; [reflexivity|]. split; [reflexivity|]. split; [reflexivity|]. split; [vm_compute; reflexivity|]. repeat split; vm_compute; try reflexivity; discriminate. Qed.
Print Assumptions C82_other_encoding_refuted.
