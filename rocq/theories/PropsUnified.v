(** C16: printed unified documents are read back exactly. *)
From Coq Require Import String Sorted Permutation.
From Verif Require Import Base QtStr Diff Parser SpecPatch SpecParse SpecText SpecUnified PAnyInput PropsParse PropsText PUnifiedPrint PUnifiedRead.
Local Open Scope Z_scope.

(** Every well-formed unified document, however many files, hunks and lines: its text is parsed without
    a complaint into one model for each file, with the names, time stamps, hunks, line numbers and lines
    that were printed. [sort] is any function that permutes (std::sort orders the models by name). *)
Theorem C16_unified_documents_read_back :
  forall sort d, (forall l, Permutation (sort l) l) -> doc_ok d ->
  exists o, parse sort (split_lines (doc_text d)) = Ok o /\ po_malformed o = false /\ po_format o = Unified /\
    exists ms, Permutation (the_models (po_models o)) ms /\ Forall2 patch_is (ud_files d) ms.
Proof.
  intros sort d HP OK. rewrite split_doc by assumption.
  destruct (doc_generator d OK) as [G ST].
  destruct (clean_folded _ _ (folded_doc d OK) [] 0) as [n EC].
  assert (EF : determine_format (determine_generator (doc_lines d)) (doc_clean d) = Unified) by now apply doc_format.
  destruct (files_forward (determine_generator (doc_lines d)) (ud_files d) G (S (length (doc_clean d))) (ud_after d) []) as (new & rest & E & F).
  - destruct OK; assumption.
  - destruct OK; assumption.
  - destruct OK as [_ SO _ _ R _]. destruct (ud_files d) as [|p ps]; [congruence|]. exact (R p ps eq_refl).
  - unfold doc_clean. rewrite app_length.
    enough (forall l, (length l <= length (concat (map patch_clean l)))%nat) as K by (specialize (K (ud_files d)); unfold str, chr in *; lia).
    induction l as [|p l IH]; cbn [map concat length]; [lia|]. rewrite app_length, patch_cleaned, !app_length. cbn [length]. lia.
  - unfold parse. unfold clean_up_crap. rewrite EC. cbn [bind rev app]. unfold base_parse. rewrite EF.
    unfold parse_unified. fold (doc_clean d) in E. rewrite E. cbn [bind app].
    eexists. split; [reflexivity|]. cbn [po_malformed po_format po_models]. split; [reflexivity|]. split; [reflexivity|].
    exists new. split; [|exact F]. rewrite the_models_sort. apply HP.
Qed.
Print Assumptions C16_unified_documents_read_back.

(** Two files, an empty side, an omitted count, a missing newline, a git signature. *)
Definition nl (s : string) : str := lit s ++ [NL].
Definition sample_doc : udoc := mk_ud
  [mk_up [nl "diff --git a/x.c b/x.c"; nl "index 123..456 100644"] (lit "a/x.c") (lit "b/x.c") [] [] None None
     [mk_uh 3 3 true true (lit "int main()") [Ctx [nl "a"; nl ""]; Chg [nl "b"] [nl "c"; nl "d"]; Ctx [nl "e"]];
      mk_uh 20 21 true true [] [Chg [nl "--- x"] [lit "y"]]];
   mk_up [] (lit "old name") (lit "new name") (lit "2020-01-01") (lit "2021-01-01") None (Some (lit "1.2"))
     [mk_uh 1 1 false false [] [Chg [] [nl "new"]]]]
  [nl "-- "; nl "2.30"].
Lemma nl_line s : negb (existsb (N.eqb NL) (lit s)) = true -> (N.of_nat (length (nl s)) < 65534)%N -> text_line (nl s).
Proof. intros A B. exists (lit s). split; [now apply no_nl_lit|]. auto. Qed.
Example C16_example : doc_ok sample_doc /\
  doc_text sample_doc = concat (map nl
   ["diff --git a/x.c b/x.c"; "index 123..456 100644"; "--- a/x.c"; "+++ b/x.c"; "@@ -3,4 +3,5 @@ int main()"; " a"; " "; "-b"; "+c"; "+d"; " e";
    "@@ -20 +21 @@"; "---- x"; "+y"; "\ No newline at end of file";
    "--- old name	2020-01-01"; "+++ new name	2021-01-01	1.2"; "@@ -0,0 +1,1 @@"; "+new"; "-- "; "2.30"]%string).
Proof.
  split; [|vm_compute; reflexivity].
  assert (B : forall p s, starts_with (lit p) (nl s) = false -> ~ begins p (nl s)).
  { intros p s H. intros [x E]. rewrite E in H. rewrite (proj2 (PHeaders.starts_with_app _ _) (ex_intro _ x eq_refl)) in H. discriminate. }
  assert (W : forall s, negb (existsb (N.eqb NL) (lit s)) = true -> starts_with (lit "--- ") (nl s) = false ->
     starts_with (lit "==== ") (nl s) = false -> starts_with (lit "\ No newline") (nl s) = false -> between_line (nl s)).
  { intros s H1 H2 H3 H4. split; [exists (lit s); split; [reflexivity|now apply no_nl_lit]|now apply B|now apply B|].
    intros [x E]. rewrite E in H4. vm_compute in H4. discriminate. }
  assert (N : forall s, lit s <> [] -> existsb (N.eqb TAB) (lit s) = false -> existsb (N.eqb NL) (lit s) = false -> name_ok (lit s)).
  { intros s H1 H2 H3. split; [exact H1|]. split; intros I.
    - rewrite (proj2 (existsb_exists _ _) (ex_intro _ TAB (conj I eq_refl))) in H2. discriminate.
    - rewrite (proj2 (existsb_exists _ _) (ex_intro _ NL (conj I eq_refl))) in H3. discriminate. }
  assert (TL : text_line (lit "y")) by (exists (lit "y"); split; [vm_compute; intuition discriminate|split; [auto|reflexivity]]).
  split.
  - constructor; [|constructor; [|constructor]].
    + split.
      * repeat constructor; apply W; reflexivity.
      * apply N; [discriminate|reflexivity|reflexivity].
      * apply N; [discriminate|reflexivity|reflexivity].
      * repeat split; intros [].
      * repeat split; intros [].
      * constructor; [|constructor; [|constructor]].
        -- split; try (vm_compute; intuition discriminate).
           ++ repeat constructor; cbn [src_lines dst_lines]; try (apply nl_line; reflexivity); intros [? ?]; discriminate.
           ++ repeat constructor.
        -- split; try (vm_compute; intuition discriminate).
           ++ repeat constructor; cbn [src_lines dst_lines]; try (apply nl_line; reflexivity); try exact TL; intros [? ?]; discriminate.
           ++ repeat constructor.
      * apply Exists_cons_hd. cbn [uh_segs]. apply Exists_cons_tl, Exists_cons_hd. exact I.
    + split.
      * constructor.
      * apply N; [discriminate|reflexivity|reflexivity].
      * apply N; [discriminate|reflexivity|reflexivity].
      * vm_compute; intuition discriminate.
      * vm_compute; intuition discriminate.
      * constructor; [|constructor]. split; try (vm_compute; intuition discriminate).
        -- repeat constructor; cbn [src_lines dst_lines]; try (apply nl_line; reflexivity); intros [? ?]; discriminate.
        -- repeat constructor.
      * apply Exists_cons_hd. cbn [uh_segs]. apply Exists_cons_hd. exact I.
  - discriminate.
  - repeat constructor; apply W; reflexivity.
  - intros p ps E. injection E as <- <-. 
    assert (Q : forall s, starts_with (lit "*** ") (nl s) = false -> match lit s with c :: _ => is_digit c = false /\ ~ In c (lit "acd") | [] => False end -> quiet (nl s)).
    { intros s H1 H2. split; [now apply B|]. unfold nl. destruct (lit s) as [|c x]; [destruct H2|]. destruct H2 as [H2 H3]. split.
      - intros c' y E. injection E as <- _. exact H2.
      - intros c' d' y E I. injection E as -> _. tauto. }
    cbn [up_before]. constructor; [|constructor; [|constructor]].
    + split; [apply B; reflexivity|]. split; [intros c x E; injection E as <- _; reflexivity|]. intros c d x E _. injection E as _ <- _. reflexivity.
    + apply Q; [reflexivity|]. vm_compute. intuition discriminate.
  - intros p ps E. injection E as <- <-. constructor; [|constructor; [|constructor]].
    + intros l ls E. discriminate.
    + intros l ls E. injection E as <- _. right. right. eexists. reflexivity.
  - intros p ps E _. cbn [sample_doc ud_files map concat up_before ud_after app]. repeat constructor; apply B; reflexivity.
Qed.
