(** C76: printed Perforce documents are read back. *)
From Coq Require Import String Sorted Permutation.
From Verif Require Import Base QtStr Diff Parser SpecPatch SpecParse SpecText PAnyInput PropsText SpecUnified SpecNormal SpecContext SpecPerforce
  PUnifiedPrint PUnifiedRead PNormal PNormalDoc PContextDoc PropsUnified PPerforce.
Local Open Scope Z_scope.

Lemma name_read need x n : side_ok x -> perforce_name need (printed_side x) n -> n = side_read x.
Proof.
  intros O H. destruct x as [f r|f|f r t]; cbn [printed_side side_read side_ok] in *.
  - destruct O as ((F1 & F2) & R1 & R2). destruct H as [(k & E & _ & NH & _)|[_ H]].
    + symmetry. eapply hash_split; eauto.
    + exfalso. apply (H f). exists r. repeat split; auto.
  - destruct O as (F1 & F2). destruct H as [(k & E & _)|[H _]]; [|exact H]. exfalso. apply F2. rewrite E. apply in_or_app. right. left. reflexivity.
  - destruct O as ((F1 & F2) & R1 & R2). destruct H as [(k & E & _ & NH & D & _)|[H _]]; [|exact H]. exfalso.
    assert (n = f) as -> by (symmetry; eapply hash_split; [| |exact NH]; [|exact E]; assumption).
    apply app_inv_head in E. cbn [lit app] in E. injection E as E. rewrite <- E in D. rewrite !forallb_app in D.
    apply andb_prop in D as [_ D]. discriminate.
Qed.
(** Every well-formed Perforce document, however many files, hunks and lines, with hunks in unified form: parsed without a
    complaint, one model for each file, with the names its header gives and the hunks as printed. [sort] is any function that permutes. *)
Theorem C76_perforce_unified_read_back :
  forall sort (d : pdoc uhunk), (forall l, Permutation (sort l) l) -> pdoc_ok hunk_ok changing_hunks d ->
  exists o, parse sort (split_lines (pdoc_text hunk_text d)) = Ok o /\ po_generator o = Perforce /\ po_format o = Unified /\ po_malformed o = false /\
    exists ms, Permutation (the_models (po_models o)) ms /\ Forall2 (pfile_is hunk_is) (pd_files d) ms.
Proof.
  intros sort d HP OK. eapply (perforce_read hunk_ok changing_hunks hunk_text hunk_clean hunk_is unified_hunks); eauto.
  - exact unified_reads.
  - intros us m hs _. apply unified_listed.
  - intros u _ H. discriminate.
  - exact whole_hunk.
  - exact folded_hunk.
  - intros us rest _. apply unified_told.
Qed.
(** The same with context hunks. *)
Theorem C76_perforce_context_read_back :
  forall sort (d : pdoc chunk), (forall l, Permutation (sort l) l) -> pdoc_ok chunk_ok nonempty d ->
  exists o, parse sort (split_lines (pdoc_text chunk_text d)) = Ok o /\ po_generator o = Perforce /\ po_format o = Context /\ po_malformed o = false /\
    exists ms, Permutation (the_models (po_models o)) ms /\ Forall2 (pfile_is chunk_is) (pd_files d) ms.
Proof.
  intros sort d HP OK. eapply (perforce_read chunk_ok nonempty chunk_text chunk_text chunk_is context_hunks); eauto.
  - exact context_reads.
  - intros us m hs. apply context_listed.
  - intros u _ H. discriminate.
  - intros u H. eapply Forall_impl; [|exact (chunk_own u H)]. intros l [W _]. exact W.
  - exact chunk_folded.
  - intros us rest _. apply context_told.
Qed.
(** The same with the commands of normal diffs: several files are no problem here. *)
Theorem C76_perforce_normal_read_back :
  forall sort (d : pdoc ncmd), (forall l, Permutation (sort l) l) -> pdoc_ok cmd_ok nonempty d ->
  exists o, parse sort (split_lines (pdoc_text cmd_text d)) = Ok o /\ po_generator o = Perforce /\ po_format o = Normal /\ po_malformed o = false /\
    exists ms, Permutation (the_models (po_models o)) ms /\ Forall2 (pfile_is cmd_is) (pd_files d) ms.
Proof.
  intros sort d HP OK. eapply (perforce_read cmd_ok nonempty cmd_text cmd_text cmd_is normal_hunks); eauto.
  - exact normal_reads.
  - intros us m hs F N C I. eapply commands_listed; eauto. exists hs. auto.
  - intros u H E. destruct (cmd_first u H) as (x & l & ls & E2 & _). congruence.
  - intros u H. eapply Forall_impl; [|exact (cmd_lines u H)]. intros l [W _]. exact W.
  - exact cmd_folded.
  - exact normal_told.
Qed.
Print Assumptions C76_perforce_unified_read_back.
Print Assumptions C76_perforce_context_read_back.
Print Assumptions C76_perforce_normal_read_back.

(** The names: of a side that names a file at a revision the name is read; of a working file, as p4 diff prints the new
    side, and of a side followed by its type, as p4 diff2 prints both sides, nothing. *)
Theorem C76_names_exactly :
  forall A (is : A -> hunk * list difference -> Prop) f m x y, pfile_is is f m -> side_ok x -> side_ok y ->
  pf_old f = printed_side x -> pf_new f = printed_side y -> dm_source m = side_read x /\ dm_destination m = side_read y.
Proof.
  intros A is f m x y [(n1 & n2 & R1 & R2 & N) _] OX OY EX EY. rewrite EX in R1. rewrite EY in R2.
  destruct N as [S D _ _ _ _ _ _]. rewrite S, D. split; [apply (name_read true x)|apply (name_read false y)]; assumption.
Qed.
(** What of the whole documents p4 diff and p4 diff2 print is read: of the first the old names, of the second none. *)
Theorem C76_names_lost :
  forall A (is : A -> hunk * list difference -> Prop) fs ms, Forall2 (pfile_is is) fs ms ->
  (Forall (fun f => exists n r w, side_ok (Revision n r) /\ side_ok (Working w) /\ pf_old f = printed_side (Revision n r) /\ pf_new f = printed_side (Working w)) fs ->
     Forall (fun m => dm_source m <> [] /\ dm_destination m = []) ms) /\
  (Forall (fun f => exists n r t n' r' t', side_ok (Typed n r t) /\ side_ok (Typed n' r' t') /\ pf_old f = printed_side (Typed n r t) /\ pf_new f = printed_side (Typed n' r' t')) fs ->
     Forall (fun m => dm_source m = [] /\ dm_destination m = []) ms).
Proof.
  intros A is fs ms F. split; intros H; induction F as [|f m fs ms M F IH]; try constructor; inversion H as [|? ? H1 H2]; subst; auto.
  - destruct H1 as (n & r & w & O1 & O2 & E1 & E2). destruct (C76_names_exactly A is f m _ _ M O1 O2 E1 E2) as [S D].
    cbn [side_read] in S, D. rewrite S, D. split; [apply O1|reflexivity].
  - destruct H1 as (n & r & t & n' & r' & t' & O1 & O2 & E1 & E2). exact (C76_names_exactly A is f m _ _ M O1 O2 E1 E2).
Qed.
Print Assumptions C76_names_exactly.
Print Assumptions C76_names_lost.

(** * Concrete documents *)
Definition sample_segs : list seg := [Ctx [lit "a"]; Chg [lit "b"] [lit "c"; lit "d"]; Ctx [lit "e"]].
Definition sample_files {A} (b1 b2 : list A) (x1 y1 x2 y2 : side) : pdoc A := mk_pd
  [mk_pf [nl "Change 42"] (printed_side x1) (printed_side y1) b1; mk_pf [] (printed_side x2) (printed_side y2) b2] [nl "-- "].
(** Between two revisions, with a working file, and with types. *)
Definition rev1 := Revision (lit "//depot/x.c") (lit "3").
Definition rev2 := Revision (lit "//depot/x y.c") (lit "12").
Definition work := Working (lit "/home/me/x.c").
Definition typed1 := Typed (lit "//depot/x.c") (lit "3") (lit "text").
Definition typed2 := Typed (lit "//depot/y.c") (lit "4") (lit "ktext").
Lemma sides_ok : side_ok rev1 /\ side_ok rev2 /\ side_ok work /\ side_ok typed1 /\ side_ok typed2.
Proof.
  assert (F : forall s, negb (existsb (N.eqb 35) (lit s)) = true -> lit s <> [] -> file_name (lit s)).
  { intros s H N. split; [exact N|]. intros I. rewrite negb_true_iff in H. rewrite <- not_true_iff_false in H. apply H.
    apply existsb_exists. exists 35%N. auto. }
  repeat split; try (apply F; [reflexivity|discriminate]); try discriminate; apply (F _ eq_refl); discriminate.
Qed.
Definition side_fits (x : side) : Prop :=
  negb (existsb (N.eqb NL) (printed_side x)) = true /\
  existsb (fun i => starts_with (lit " - ") (skipn i (printed_side x ++ lit " -"))) (seq 0 (length (printed_side x ++ lit " -"))) = false.
Lemma sample_ok {A} (ok : A -> Prop) (changing : list A -> Prop) b1 b2 x1 y1 x2 y2 : Forall ok b1 -> changing b1 -> Forall ok b2 -> changing b2 ->
  Forall side_fits [x1; y1; x2; y2] -> pdoc_ok ok changing (sample_files b1 b2 x1 y1 x2 y2).
Proof.
  intros F1 C1 F2 C2 R.
  assert (B : forall p s, starts_with (lit p) (nl s) = false -> ~ begins p (nl s)).
  { intros p s H. intros [x E]. rewrite E in H. rewrite (proj2 (PHeaders.starts_with_app _ _) (ex_intro _ x eq_refl)) in H. discriminate. }
  assert (D : forall n : str, existsb (fun i => starts_with (lit " - ") (skipn i n)) (seq 0 (length n)) = false -> forall u v, n <> u ++ lit " - " ++ v).
  { intros n H u v ->. rewrite <- not_true_iff_false in H. apply H. apply existsb_exists. exists (length u). split.
    - apply in_seq. rewrite !app_length. cbn. lia.
    - rewrite skipn_app, skipn_all, Nat.sub_diag. apply PHeaders.starts_with_app. exists v. reflexivity. }
  assert (K : forall x, side_fits x -> ~ In NL (printed_side x) /\ (forall u v, printed_side x ++ lit " -" <> u ++ lit " - " ++ v)).
  { intros x [H1 H2]. split; [|apply D; exact H2]. intros I. rewrite negb_true_iff in H1. rewrite <- not_true_iff_false in H1. apply H1.
    apply existsb_exists. exists NL. auto. }
  inversion R as [|? ? R1 Q1]; subst. inversion Q1 as [|? ? R2 Q2]; subst. inversion Q2 as [|? ? R3 Q3]; subst. inversion Q3 as [|? ? R4 _]; subst.
  split.
  - constructor; [|constructor; [|constructor]].
    + split; cbn [pf_before pf_old pf_new pf_body]; auto; [|now apply K].
      constructor; [|constructor]. split; [exists (lit "Change 42"); split; [reflexivity|apply no_nl_lit; reflexivity]|apply B; reflexivity|].
      intros [x X]. discriminate.
    + split; cbn [pf_before pf_old pf_new pf_body]; auto. now apply K.
  - discriminate.
  - constructor; [|constructor]. split; [exists (lit "-- "); split; [reflexivity|apply no_nl_lit; reflexivity]|apply B; reflexivity|].
    intros [x X]. discriminate.
  - intros p ps E. injection E as <- _. cbn [pf_before]. constructor; [|constructor]. split; [|repeat split; apply B; reflexivity].
    split; [apply B; reflexivity|]. split; intros; injection H as <- _; [reflexivity|]. vm_compute in H0. intuition discriminate.
  - intros p ps E. injection E as <- <-. cbn [pf_before map app sample_files pd_after]. constructor; [|constructor; [|constructor]].
    + intros l ls' H. discriminate.
    + intros l ls' H. injection H as <- _. right. right. eexists. reflexivity.
Qed.
Lemma sides_fit : Forall side_fits [rev1; rev2; work; typed1; typed2].
Proof. repeat (apply Forall_cons; [split; reflexivity|]). apply Forall_nil. Qed.
Lemma fits_of x : In x [rev1; rev2; work; typed1; typed2] -> side_fits x.
Proof. pose proof sides_fit as H. rewrite Forall_forall in H. apply H. Qed.
Ltac fits := repeat (apply Forall_cons; [apply fits_of; cbn; tauto|]); apply Forall_nil.
Definition uh1 := mk_uh 3 3 true true (lit "int main()") [Ctx [nl "a"]; Chg [nl "b"] [nl "c"; lit "d"]].
Lemma uh1_ok : hunk_ok uh1.
Proof.
  split; try (vm_compute; intuition discriminate).
  - repeat constructor; cbn [src_lines dst_lines]; try (apply nl_line; reflexivity); try (intros [? ?]; discriminate).
    exists (lit "d"). split; [apply no_nl_lit; reflexivity|split; [auto|reflexivity]].
  - repeat constructor.
Qed.
Lemma uh1_changes : changing_hunks [uh1].
Proof. apply Exists_cons_hd. cbn [uh1 uh_segs]. apply Exists_cons_tl, Exists_cons_hd. exact I. Qed.
Definition ch1 := mk_ch 3 3 [] sample_segs.
Lemma ch1_ok : chunk_ok ch1.
Proof.
  split; try (vm_compute; intuition discriminate).
  - assert (L : forall s, negb (existsb (N.eqb NL) (lit s)) = true -> count (lit s) < 65535 -> line_text (lit s)).
    { intros s H1 H2. split; [now apply no_nl_lit|exact H2]. }
    repeat apply Forall_cons; try apply Forall_nil; (split; [|split; [|intros [? ?]; discriminate]]); cbn [src_lines dst_lines];
      repeat apply Forall_cons; try apply Forall_nil; apply L; reflexivity.
  - repeat constructor.
  - apply Exists_cons_tl, Exists_cons_hd. exact I.
Qed.
Definition nc1 := NChg 3 3 [lit "b"] [lit "c"; lit "d"].
Lemma nc1_ok : cmd_ok nc1.
Proof.
  split; try (vm_compute; intuition discriminate). cbn [nc1 old_lines new_lines app]. repeat constructor; apply no_nl_lit; reflexivity.
Qed.
Example C76_example_documents :
  pdoc_ok hunk_ok changing_hunks (sample_files [uh1] [uh1] rev1 rev2 rev2 work) /\
  pdoc_ok chunk_ok nonempty (sample_files [ch1] [ch1] rev1 rev2 typed1 typed2) /\
  pdoc_ok cmd_ok nonempty (sample_files [nc1; nc1] [nc1] rev1 work rev2 work) /\
  (side_ok rev1 /\ side_ok rev2 /\ side_ok work /\ side_ok typed1 /\ side_ok typed2) /\
  pdoc_text cmd_text (sample_files [nc1] [nc1] rev1 work typed1 typed2) = concat (map nl
   ["Change 42"; "==== //depot/x.c#3 - /home/me/x.c ===="; "3c3,4"; "< b"; "---"; "> c"; "> d";
    "==== //depot/x.c#3 (text) - //depot/y.c#4 (ktext) ===="; "3c3,4"; "< b"; "---"; "> c"; "> d"; "-- "]%string).
Proof.
  split; [apply sample_ok; auto using uh1_ok, uh1_changes; fits|]. split; [apply sample_ok; auto using ch1_ok; try discriminate; fits|].
  split; [apply sample_ok; auto using nc1_ok; try discriminate; fits|]. split; [exact sides_ok|]. vm_compute. reflexivity.
Qed.

(** So the names are not those of the header: witness, a file of the depot compared with a working file and two revisions with their types. *)
Theorem C76_names_refuted :
  ~ (forall sort (d : pdoc ncmd), (forall l, Permutation (sort l) l) -> pdoc_ok cmd_ok nonempty d ->
     exists o ms, parse sort (split_lines (pdoc_text cmd_text d)) = Ok o /\ Permutation (the_models (po_models o)) ms /\
       Forall2 (fun f m => forall x y, side_ok x -> side_ok y -> pf_old f = printed_side x -> pf_new f = printed_side y ->
         dm_source m = side_name x /\ dm_destination m = side_name y) (pd_files d) ms).
Proof.
  intros H. destruct sides_ok as (O1 & O2 & O3 & O4 & O5).
  assert (OK : pdoc_ok cmd_ok nonempty (sample_files [nc1] [nc1] rev1 work typed1 typed2)) by (apply sample_ok; auto using nc1_ok; try discriminate; fits).
  destruct (H (fun l => l) _ (fun l => Permutation_refl l) OK) as (o & ms & E & P & F).
  destruct (C76_perforce_normal_read_back (fun l => l) _ (fun l => Permutation_refl l) OK) as (o' & E' & _ & _ & _ & ms' & P' & F').
  pose proof (eq_trans (eq_sym E) E') as EO. injection EO as <-.
  assert (PP : Permutation ms ms') by (eapply Permutation_trans; [apply Permutation_sym|]; eauto).
  cbn [pd_files sample_files] in F, F'.
  inversion F as [|f m fs ms1 N1 F1]. subst. specialize (N1 rev1 work O1 O3 eq_refl eq_refl). destruct N1 as [_ N1].
  assert (I : In m ms') by (eapply Permutation_in; [exact PP|now left]).
  inversion F' as [|f' m' fs' ms2 M1 F2]. subst. inversion F2 as [|f2 m2 fs2 ms3 M2 F3]. subst. inversion F3. subst.
  destruct (C76_names_exactly _ _ _ _ rev1 work M1 O1 O3 eq_refl eq_refl) as [_ D1].
  destruct (C76_names_exactly _ _ _ _ typed1 typed2 M2 O4 O5 eq_refl eq_refl) as [_ D2].
  destruct I as [<-|[<-|[]]]; [rewrite D1 in N1|rewrite D2 in N1]; discriminate.
Qed.
Print Assumptions C76_names_refuted.
