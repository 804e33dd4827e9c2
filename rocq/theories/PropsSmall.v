(** C53: context diffs with sides of no line or one line. *)
From Coq Require Import String Sorted Permutation.
From Verif Require Import Base QtStr Lev Diff Regex Patterns Parser SpecEdit SpecInline SpecPatch SpecRegex SpecParse SpecText SpecUnified SpecNormal SpecContext SpecSmall
  PRegex PRegexLang PLev PHistory PEditLines PParse PUnified PHeaders PFileHeads PUnifiedDoc PFuel PAnyInput PDefined PropsParse PropsText PUnifiedPrint PUnifiedRead PNormal PNormalDoc PContext PContextDoc PMissing PSmall.
From Verif Require Import PropsUnified PropsNormal PropsContext.
Local Open Scope Z_scope.

Lemma no_nl_app (a b : str) : ~ In NL a -> ~ In NL b -> ~ In NL (a ++ b).
Proof. intros A B J; apply in_app_or in J as [J|J]; auto. Qed.
Lemma small_own h : small_chunk_ok h -> Forall own_line (small_chunk_text h).
Proof.
  intros OK. pose proof OK as [[A1 A2] [B1 B2] HF HS _ _]. destruct (sides_like _ HS) as [L1 L2]. destruct (src_nonneg (ch_segs h)) as [N1 N2].
  assert (LL : forall ls, Forall hunk_line_like ls -> Forall own_line ls).
  { intros ls. apply Forall_impl. intros l (c & t & -> & I & N). split.
    - exists (c :: SP :: t). split; [reflexivity|]. intros [J|[J|J]]; [|discriminate|auto]. subst c. vm_compute in I. intuition discriminate.
    - exists c, (SP :: t ++ [NL]). split; [reflexivity|]. right. exact I. }
  destruct (any_range_name (ch_a h) (src_count (ch_segs h)) " ****") as [(_ & _ & RA) _]; [lia|lia|auto|].
  destruct (any_range_name (ch_b h) (dst_count (ch_segs h)) " ----") as [(_ & _ & RB) _]; [lia|lia|auto|].
  unfold small_chunk_text. apply Forall_app. split; [|apply Forall_app; split; [auto|apply Forall_app; split; [|auto]]].
  - constructor; [|constructor; [|constructor]]; (split; [|eexists _, _; split; [reflexivity|vm_compute; tauto]]).
    + eexists. split; [rewrite app_assoc; reflexivity|]. apply no_nl_app; [now apply no_nl_lit|].
      destruct (ch_function h); [intros []|]. intros [J|J]; [discriminate|auto].
    + exists (lit "*** " ++ any_range (ch_a h) (src_count (ch_segs h)) ++ lit " ****"). split; [rewrite <- !app_assoc; reflexivity|].
      apply no_nl_app; [now apply no_nl_lit|exact RA].
  - constructor; [|constructor]; (split; [|eexists _, _; split; [reflexivity|vm_compute; tauto]]).
    exists (lit "--- " ++ any_range (ch_b h) (dst_count (ch_segs h)) ++ lit " ----"). split; [rewrite <- !app_assoc; reflexivity|].
    apply no_nl_app; [now apply no_nl_lit|exact RB].
Qed.
Lemma small_all d (P : str -> Prop) : small_doc_ok d -> (forall l, cbetween l -> In l (asides d) -> P l) -> (forall l, own_line l -> P l) -> Forall P (small_doc_lines d).
Proof.
  intros [OK _ AF _ _ _] A B. unfold small_doc_lines. apply Forall_app. rewrite Forall_forall in OK, AF. split.
  - apply Forall_forall. intros l I. apply in_concat in I as (ls & I1 & I2). apply in_map_iff in I1 as (p & <- & I1).
    destruct (OK p I1) as [BE O N S1 S2 [R1 R2] CH _]. rewrite Forall_forall in BE, CH. unfold small_patch_text in I2.
    apply in_app_or in I2 as [I2|I2].
    + apply A; [auto|]. unfold asides. apply in_or_app. left. apply in_concat. exists (cp_before p). split; [now apply in_map|exact I2].
    + apply B. rewrite R1, R2 in I2. cbn [app] in I2. destruct I2 as [<-|[<-|I2]].
      * apply cheading_own; auto; [eexists _, _; split; [reflexivity|vm_compute; tauto]|now apply no_nl_lit].
      * apply cheading_own; auto; [eexists _, _; split; [reflexivity|vm_compute; tauto]|now apply no_nl_lit].
      * apply in_concat in I2 as (ls & I3 & I4). apply in_map_iff in I3 as (h & <- & I3).
        pose proof (small_own h (CH h I3)) as F. rewrite Forall_forall in F. auto.
  - apply Forall_forall. intros l I. apply A; [auto|]. unfold asides. apply in_or_app. auto.
Qed.
(** C53 (partial: the full property, that such hunks are read, is false: [C24_one_number_refuted]). What is read of
    every document of diff -c, whatever the number of lines on each side of its hunks: in each file, the hunks before
    the first one with fewer than two lines on a side; and the next files, unless reading ended. *)
Theorem C53_what_is_read_partial :
  forall sort d, (forall l, Permutation (sort l) l) -> small_doc_ok d ->
    exists o, parse sort (split_lines (small_doc_text d)) = Ok o /\ po_format o = Context /\
      po_malformed o = complaint (cd_files d) /\
      exists mss, Permutation (the_models (po_models o)) (concat mss) /\ Forall2 small_patch_is (files_read (cd_files d)) mss.
Proof.
  intros sort d HP OK. unfold small_doc_text.
  assert (WL : Forall whole_line (small_doc_lines d)).
  { apply (small_all d _ OK); [|intros l [H _]; exact H]. intros l [(t & E & N) _ _ _] _. exists t; auto. }
  rewrite split_whole by exact WL.
  destruct (clean_same (small_doc_lines d)) as [n EC].
  { apply (small_all d _ OK); [intros l H _; apply H|].
    intros l. apply (own_not "\ No newline" BSL); [reflexivity|vm_compute; intuition discriminate]. }
  assert (G : determine_generator (small_doc_lines d) = DiffDiff).
  { apply generator_of.
    - apply (small_all d _ OK); [intros l H _; apply H|]. intros l. apply (own_not "==== " 61%N); [reflexivity|vm_compute; intuition discriminate].
    - apply (small_all d _ OK); [|intros l; apply (own_not "Index: " 73%N); [reflexivity|vm_compute; intuition discriminate]].
      intros l _ I. destruct OK as [_ _ _ _ _ D]. rewrite Forall_forall in D. now apply D. }
  assert (FM : determine_format DiffDiff (small_doc_lines d) = Context).
  { pose proof OK as [F SO _ Q _ _]. unfold small_doc_lines. destruct (cd_files d) as [|p ps]; [congruence|].
    specialize (Q p ps eq_refl). inversion_clear F as [|? ? OKp _]. cbn [map concat]. unfold small_patch_text at 1. rewrite <- !app_assoc.
    induction Q as [|l ls [QL NL'] Q IH].
    - cbn [app determine_format]. pose proof (cheading_format false _ (rechunk_ok p OKp)) as CF.
      cbn [rechunk cp_old cp_stamp1 cp_rev1 dialect] in CF. rewrite CF. reflexivity.
    - cbn [app determine_format]. rewrite quiet_format; [|discriminate|exact QL|exact NL']. exact IH. }
  destruct (sfiles_forward (cd_files d) (S (length (small_doc_lines d))) [] (cd_after d) [] false) as (mss & rest & E & F).
  - constructor.
  - apply OK.
  - apply OK.
  - destruct OK as [_ SO _ _ R _]. destruct (cd_files d) as [|p ps]; [congruence|]. exact (R p ps eq_refl).
  - unfold small_doc_lines. rewrite app_length.
    enough (forall l, (weight l <= length (concat (map small_patch_text l)))%nat) as K by (specialize (K (cd_files d)); unfold str, chr in *; lia).
    assert (KC : forall us, (length us <= length (concat (map small_chunk_text us)))%nat).
    { induction us as [|u us IH]; cbn [map concat length]; [lia|]. rewrite app_length. unfold small_chunk_text at 1. rewrite app_length. cbn [length]. lia. }
    induction l as [|p l IH]; cbn [map concat weight fold_right]; [lia|]. fold (weight l). rewrite app_length. unfold small_patch_text at 1. rewrite !app_length. cbn [length].
    specialize (KC (cp_chunks p)). unfold str, chr in *. lia.
  - unfold parse. rewrite EC, G. cbn [bind]. unfold base_parse. rewrite FM.
    unfold parse_context. cbn [app orb] in E. fold (small_doc_lines d) in E. unfold str, chr in *. rewrite E. cbn [bind].
    eexists. split; [reflexivity|]. cbn [po_malformed po_format po_models]. split; [reflexivity|]. split; [reflexivity|].
    exists mss. split; [|exact F]. rewrite the_models_sort. apply HP.
Qed.
Print Assumptions C53_what_is_read_partial.
(** A case: a readable hunk and one with one new line; a new file; a file with a readable hunk; a one-line file that is
    changed; a file that is not reached. *)
Definition readable_chunk : chunk := mk_ch 1 1 [] [Chg [lit "p"] [lit "q"]; Ctx [lit "r"]].
Definition sample_small : cdoc := mk_cd
  [mk_cp [nl "diff -c a/x b/x"] (lit "a/x") (lit "b/x") (lit "Mon Jan  1 2020") (lit "Tue Jan  2 2020") None None
     [readable_chunk; mk_ch 9 9 [] [Chg [lit "s"; lit "t"] []; Ctx [lit "u"]]];
   mk_cp [] (lit "a/new") (lit "b/new") [] [] None None [mk_ch 1 1 [] [Chg [] [lit "x"; lit "y"]]];
   mk_cp [] (lit "a/y") (lit "b/y") [] [] None None [readable_chunk];
   mk_cp [nl "diff -c a/z b/z"] (lit "a/z") (lit "b/z") [] [] None None [mk_ch 1 1 [] [Chg [lit "one"] [lit "two"]]];
   mk_cp [] (lit "a/y2") (lit "b/y2") [] [] None None [readable_chunk]] [].
Example C53_example : small_doc_ok sample_small /\
  small_doc_text sample_small = concat (map nl
   ["diff -c a/x b/x"; "*** a/x	Mon Jan  1 2020"; "--- b/x	Tue Jan  2 2020";
    "***************"; "*** 1,2 ****"; "! p"; "  r"; "--- 1,2 ----"; "! q"; "  r";
    "***************"; "*** 9,11 ****"; "- s"; "- t"; "  u"; "--- 9 ----";
    "*** a/new"; "--- b/new"; "***************"; "*** 0 ****"; "--- 1,2 ----"; "+ x"; "+ y";
    "*** a/y"; "--- b/y"; "***************"; "*** 1,2 ****"; "! p"; "  r"; "--- 1,2 ----"; "! q"; "  r";
    "diff -c a/z b/z"; "*** a/z"; "--- b/z"; "***************"; "*** 1 ****"; "! one"; "--- 1 ----"; "! two";
    "*** a/y2"; "--- b/y2"; "***************"; "*** 1,2 ****"; "! p"; "  r"; "--- 1,2 ----"; "! q"; "  r"]%string) /\
  complaint (cd_files sample_small) = true /\
  map cp_old (files_read (cd_files sample_small)) = [lit "a/x"; lit "a/new"; lit "a/y"; lit "a/z"] /\
  map (fun p => length (hunks_read (cp_chunks p))) (files_read (cd_files sample_small)) = [1; 0; 1; 0]%nat.
Proof.
  split; [|repeat split; vm_compute; reflexivity].
  assert (L : forall s, existsb (N.eqb NL) (lit s) = false -> count (lit s) < 65535 -> line_text (lit s)).
  { intros s H1 H2. split; [|exact H2]. intros I. rewrite (proj2 (existsb_exists _ _) (ex_intro _ NL (conj I eq_refl))) in H1. discriminate. }
  assert (S : forall s, Forall line_text (src_lines s) -> Forall line_text (dst_lines s) -> src_lines s ++ dst_lines s <> [] -> cseg_ok s).
  { intros s H1 H2 H3. split; [exact H1|]. split; [exact H2|]. intros [E1 E2]. apply H3. rewrite E1, E2. reflexivity. }
  assert (CK : forall p, In p (cd_files sample_small) -> Forall small_chunk_ok (cp_chunks p)).
  { intros p I. repeat (destruct I as [<-|I]); [..|destruct I]; cbn [cp_chunks]; repeat apply Forall_cons; try apply Forall_nil; split; try (vm_compute; intuition discriminate); cbn [ch_segs readable_chunk].
    all: try (repeat apply Forall_cons; try apply Forall_nil; apply S; cbn [src_lines dst_lines]; repeat apply Forall_cons; try apply Forall_nil; try discriminate; apply L; reflexivity).
    all: try (repeat constructor; fail).
    all: apply Exists_cons_hd; exact I. }
  split.
  - apply Forall_forall. intros p I. specialize (CK p I). repeat (destruct I as [<-|I]); [..|destruct I]; split; try (vm_compute; intuition discriminate); auto.
    all: cbn [cp_before cp_old cp_new]; first [apply name_lit; [discriminate|reflexivity|reflexivity]|
      repeat apply Forall_cons; try apply Forall_nil; apply cbetween_nl; reflexivity].
  - discriminate.
  - apply Forall_nil.
  - intros p ps E. injection E as <- <-. repeat apply Forall_cons; try apply Forall_nil. split; [apply quiet_nl; [reflexivity|vm_compute; auto]|apply begins_no; reflexivity].
  - intros p ps E. injection E as <- <-. repeat apply Forall_cons; try apply Forall_nil; cbn [cp_before]; intros l ls E; try discriminate.
    injection E as <- _. left. eexists. reflexivity.
  - repeat apply Forall_cons; try apply Forall_nil; apply begins_no; reflexivity.
Qed.
(** Two readings of the theorem. A changed one-line file: no complaint, and nothing after it is read. *)
Corollary C53_silent_loss :
  forall sort p ps after x y, (forall l, Permutation (sort l) l) ->
    small_doc_ok (mk_cd (p :: ps) after) -> cp_chunks p = [mk_ch 1 1 [] [Chg [x] [y]]] ->
    exists o, parse sort (split_lines (small_doc_text (mk_cd (p :: ps) after))) = Ok o /\ po_malformed o = false /\ the_models (po_models o) = [].
Proof.
  intros sort p ps after x y HP OK E. destruct (C53_what_is_read_partial sort _ HP OK) as (o & PO & _ & MF & mss & PM & F).
  exists o. split; [exact PO|]. cbn [cd_files] in *. unfold complaint in MF. cbn [files_read] in MF, F. rewrite E in MF, F. cbn in MF, F. rewrite E in MF. cbn in MF.
  split; [exact MF|]. inversion F as [|p' ms' ps' mss' H1 H2 Q1 Q2]. subst. inversion H2. subst. unfold small_patch_is in H1. rewrite E in H1. cbn in H1. subst.
  cbn in PM. apply Permutation_sym, Permutation_nil in PM. exact PM.
Qed.
Print Assumptions C53_silent_loss.
