(** C18: what recreateDiff() prints for a document in any form is read again. *)
From Coq Require Import String Sorted Permutation.
From Verif Require Import Base QtStr Diff Save Parser SpecPatch SpecParse SpecText SpecUnified PUnified PUnifiedDoc PAnyInput PropsParse PropsText PUnifiedPrint PUnifiedRead PropsUnified PropsRecreate.
Local Open Scope Z_scope.

(** The second reading of a file: the same names, time stamps, functions, lines and kinds of differences; the same line
    numbers too, but for a side of a hunk that has no lines, where the number has grown by one. *)
Definition same_lines (d d2 : difference) : Prop :=
  d_type d2 = d_type d /\ lines_of (d_slines d2) = lines_of (d_slines d) /\ lines_of (d_dlines d2) = lines_of (d_dlines d).
Definition moved_if_empty (ls : list str) (n n2 : Z) : Prop := n2 = n + match ls with [] => 1 | _ => 0 end.
Definition reread_hunk (p p2 : hunk * list difference) : Prop :=
  h_function (fst p2) = h_function (fst p) /\ Forall2 same_lines (snd p) (snd p2) /\
  moved_if_empty (concat (map (fun d => lines_of (d_slines d)) (snd p))) (h_src (fst p)) (h_src (fst p2)) /\
  moved_if_empty (concat (map (fun d => lines_of (d_dlines d)) (snd p))) (h_dst (fst p)) (h_dst (fst p2)).
Definition reread (m m2 : dmodel) : Prop :=
  dm_source m2 = dm_source m /\ dm_destination m2 = dm_destination m /\ dm_sts m2 = dm_sts m /\ dm_dts m2 = dm_dts m /\
  exists hs hs2, contents m hs /\ contents m2 hs2 /\ Forall2 reread_hunk hs hs2.
(** There are names left when quotes and backslashes are taken off, and line numbers can grow by one. *)
Record reusable (p : upatch) : Prop := {
  ru_names : unescape_path (up_old p) <> [] /\ unescape_path (up_new p) <> [];
  ru_numbers : Forall (fun h => uh_a h < 2147483647 /\ uh_b h < 2147483647) (up_hunks p) }.

Lemma replace_in a b c : forall s k, In c (replace_aux a b k s) -> In c s \/ In c b.
Proof.
  induction s as [|x s IH]; intros k; cbn [replace_aux]; [intros []|]. destruct k as [|k].
  - destruct (starts_with a (x :: s)).
    + intros I. apply in_app_or in I as [I|I]; [auto|]. destruct (IH _ I); [left; now right|auto].
    + intros [<-|I]; [left; now left|]. destruct (IH _ I); [left; now right|auto].
  - intros I. destruct (IH _ I); [left; now right|auto].
Qed.
Lemma unescape_in c s : In c (unescape_path s) -> In c s \/ c = QUOTE \/ c = BSL.
Proof.
  unfold unescape_path, replace. intros I. apply replace_in in I as [I|[<-|[]]]; [|auto]. apply replace_in in I as [I|[<-|[]]]; [|auto]. left.
  destruct (_ && _)%bool; [|exact I]. unfold mid in I.
  assert (FI : forall (l : str) n, In c (firstn n l) -> In c l) by (induction l as [|x l IH]; intros [|n]; cbn; try tauto; intros [E|J]; [auto|right; eauto]).
  apply FI in I. destruct s as [|x s]; [destruct I|]. right. exact I.
Qed.
Lemma escape_in c s : In c (escape_path s) -> In c s \/ c = QUOTE \/ c = BSL.
Proof.
  unfold escape_path, replace. intros I.
  assert (K : In c (replace_aux [QUOTE] [BSL; QUOTE] 0 (replace_aux [BSL] [BSL; BSL] 0 s)) -> In c s \/ c = QUOTE \/ c = BSL).
  { intros J. apply replace_in in J as [J|[<-|[<-|[]]]]; [|auto|auto]. apply replace_in in J as [J|[<-|[<-|[]]]]; auto. }
  destruct (contains_chr _ _); [|auto]. destruct I as [<-|I]; [auto|]. apply in_app_or in I as [I|[<-|[]]]; auto.
Qed.
Lemma escape_name n : name_ok n -> unescape_path n <> [] -> name_ok (escape_path (unescape_path n)).
Proof.
  intros (_ & NT & NN) NE. split; [|split].
  - intros E. apply NE. rewrite <- (C02_escaping_round_trips (unescape_path n)), E. reflexivity.
  - intros I. apply escape_in in I as [I|[I|I]]; [|discriminate|discriminate]. apply unescape_in in I as [I|[I|I]]; [auto|discriminate|discriminate].
  - intros I. apply escape_in in I as [I|[I|I]]; [|discriminate|discriminate]. apply unescape_in in I as [I|[I|I]]; [auto|discriminate|discriminate].
Qed.
Lemma rewritten_ok p : patch_ok p -> rewritable p -> reusable p -> patch_ok (rewritten p).
Proof.
  intros [B O N S1 S2 H C] _ [[R1 R2] RN]. split; cbn [rewritten up_before up_old up_new up_stamp1 up_stamp2 up_more1 up_more2 up_hunks].
  - constructor.
  - now apply escape_name.
  - now apply escape_name.
  - destruct S1 as (X1 & X2 & _). split; [exact X1|]. split; [exact X2|exact I].
  - destruct S2 as (X1 & X2 & _). split; [exact X1|]. split; [exact X2|exact I].
  - apply Forall_map. rewrite Forall_forall in *. intros h IH. destruct (H h IH) as [A1 A2 A3 A4 A5 A6 A7]. destruct (RN h IH) as [L1 L2].
    split; cbn [rewritten_hunk uh_a uh_b uh_segs uh_function]; try assumption; unfold fits_int in *; destruct (Z.eqb _ 0); lia.
  - apply Exists_exists in C as (h & IH & X). apply Exists_exists. exists (rewritten_hunk h). split; [now apply in_map|exact X].
Qed.
Lemma rewritten_doc_ok ps : ps <> [] -> Forall patch_ok ps -> Forall rewritable ps -> Forall reusable ps -> doc_ok (mk_ud (map rewritten ps) []).
Proof.
  intros NE OK RW RU. assert (F : Forall patch_ok (map rewritten ps)).
  { apply Forall_map. rewrite Forall_forall in *. intros p I. apply rewritten_ok; auto. }
  assert (BE : forall q, In q (map rewritten ps) -> up_before q = []) by (intros q I; apply in_map_iff in I as (p & <- & _); reflexivity).
  split; cbn [ud_files ud_after].
  - exact F.
  - destruct ps; [congruence|discriminate].
  - constructor.
  - intros p qs E. rewrite (BE p); [constructor|]. rewrite E. now left.
  - intros p qs E. apply Forall_app. split; [|constructor; [intros l ls Q; discriminate|constructor]]. apply Forall_map, Forall_forall. intros q I. rewrite (BE q); [intros l ls Q; discriminate|]. rewrite E. now right.
  - intros p qs E S. exfalso. destruct ps as [|p0 ps]; [discriminate|]. cbn in E. injection E as <- _. inversion_clear RW as [|? ? [[R1 _] _] _]. auto.
Qed.
Lemma empty_count ss (ds : list difference) : Forall2 seg_is ss ds ->
  concat (map (fun d => lines_of (d_slines d)) ds) = concat (map src_lines ss) /\ concat (map (fun d => lines_of (d_dlines d)) ds) = concat (map dst_lines ss).
Proof. induction 1 as [|s d ss ds (A & B & _) F [I1 I2]]; [auto|]. cbn [map concat]. now rewrite I1, I2, A, B. Qed.
Lemma moved_count (ls : list str) a : (if Z.eqb (count ls) 0 then a + 1 else a) = a + match ls with [] => 1 | _ => 0 end.
Proof. unfold count. destruct ls as [|x ls]; cbn [length]; [reflexivity|]. destruct (Z.eqb_spec (Z.of_nat (S (length ls))) 0); lia. Qed.
Lemma read_twice p m m2 : patch_is p m -> patch_is (rewritten p) m2 -> reread m m2.
Proof.
  intros ([N1 N2 _ _ N3 N4 _ _] & hs & C & F) ([M1 M2 _ _ M3 M4 _ _] & hs2 & C2 & F2). cbn [rewritten up_old up_new up_stamp1 up_stamp2 up_hunks] in *. rewrite C02_escaping_round_trips in M1, M2.
  split; [congruence|]. split; [congruence|]. split; [congruence|]. split; [congruence|]. exists hs, hs2. split; [exact C|]. split; [exact C2|]. clear -F F2. revert hs2 F2.
  induction F as [|u q us hs (A & B & FU & _ & SG & _) F IH]; intros hs2 F2; cbn [map] in F2; inversion F2 as [|? q2 ? qs2 (A2 & B2 & FU2 & _ & SG2 & _) F2' E1 E2]; subst; [constructor|]. constructor; [|now apply IH].
  cbn [rewritten_hunk uh_a uh_b uh_function uh_segs] in *. destruct (empty_count _ _ SG) as [X1 X2]. unfold reread_hunk, moved_if_empty. rewrite X1, X2, A, B, A2, B2. split; [congruence|]. split.
  - clear -SG SG2. revert SG2. generalize (snd q2). induction SG as [|s d ss ds (S1 & S2 & S3) SG IH]; intros l SG2; inversion SG2 as [|? d2 ? ds2 (T1 & T2 & T3) SG2' E1 E2]; subst; constructor; [|now apply IH]. split; [congruence|]. split; congruence.
  - split; apply moved_count.
Qed.
Theorem C18_recreated_diff_is_read_again_partial :
  forall sort d o, (forall l, Permutation (sort l) l) -> doc_ok d -> Forall rewritable (ud_files d) -> Forall reusable (ud_files d) ->
  parse sort (split_lines (doc_text d)) = Ok o ->
  exists text o2 ms2, recreate_all (the_models (po_models o)) = Ok text /\ parse sort (split_lines text) = Ok o2 /\ po_malformed o2 = false /\ po_format o2 = Unified /\
    Permutation (the_models (po_models o2)) ms2 /\ Forall2 reread (the_models (po_models o)) ms2.
Proof.
  intros sort d o HP OK RW RU E. destruct (C16_unified_documents_read_back sort d HP OK) as (o' & E' & _ & _ & ms & P & F). rewrite E in E'. injection E' as <-.
  destruct (Forall2_permuted _ _ _ _ F P) as (ps & P2 & F2).
  assert (RW' : Forall rewritable ps) by (eapply Permutation_Forall; [symmetry; exact P2|exact RW]). assert (RU' : Forall reusable ps) by (eapply Permutation_Forall; [symmetry; exact P2|exact RU]).
  assert (OK' : Forall patch_ok ps) by (eapply Permutation_Forall; [symmetry; exact P2|apply OK]).
  assert (NE : ps <> []) by (intros ->; apply Permutation_nil in P2; destruct OK as [_ SO _ _ _ _]; congruence).
  destruct (C16_unified_documents_read_back sort _ HP (rewritten_doc_ok ps NE OK' RW' RU')) as (o2 & A & B & C & ms2 & D1 & D2).
  exists (doc_text (mk_ud (map rewritten ps) [])), o2, ms2. split; [now apply recreate_list|]. split; [exact A|]. split; [tauto|]. split; [tauto|]. split; [exact D1|].
  clear -F2 D2. cbn [ud_files] in D2. revert ms2 D2. induction F2 as [|p m ps ms H F2 IH]; intros ms2 D2; cbn [map] in D2; inversion D2; subst; constructor; [eapply read_twice; eassumption|now apply IH].
Qed.
Print Assumptions C18_recreated_diff_is_read_again_partial.
