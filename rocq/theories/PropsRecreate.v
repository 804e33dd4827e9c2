(** C17, C18, C19: the text of recreateDiff(). *)
From Coq Require Import String Sorted Permutation.
From Verif Require Import Base QtStr Diff Save Parser SpecPatch SpecParse SpecText SpecUnified PUnified PUnifiedDoc PAnyInput PropsParse PropsText PUnifiedPrint PUnifiedRead PropsUnified.
Local Open Scope Z_scope.

(** * Recreating what was read *)
Lemma number_zero : number 0 = lit "0". Proof. reflexivity. Qed.
Lemma body_terminated c ls : Forall terminated ls -> concat (body_lines c ls) = concat (map (cons c) ls).
Proof.
  unfold body_lines. induction 1 as [|l ls (t & ->) F IH]; [reflexivity|]. cbn [map concat]. rewrite concat_app.
  rewrite IH. unfold body_line. rewrite ends_nl_app. cbn [concat app]. now rewrite app_nil_r.
Qed.
Lemma concat_strings c (l : list dstr) : concat (map (fun s => c :: ds_string s) l) = concat (map (cons c) (lines_of l)).
Proof. unfold lines_of. now rewrite map_map. Qed.
Lemma concat_nothing (l : list dstr) : concat (map (fun _ => @nil chr) l) = [].
Proof. induction l; auto. Qed.
Lemma recreate_seg s d : seg_is s d -> seg_terminated s -> recreate_difference d = concat (seg_text s).
Proof.
  intros (S1 & S2 & T) (T1 & T2). unfold recreate_difference.
  destruct s as [ls|r a]; cbn [src_lines dst_lines seg_text] in *.
  - rewrite T, concat_nothing, concat_strings, S2, body_terminated by assumption. reflexivity.
  - rewrite concat_app, !body_terminated by assumption. rewrite <- S1, <- S2, <- !concat_strings.
    destruct r as [|x r], a as [|y a]; rewrite T.
    + destruct (d_slines d); [|discriminate]. destruct (d_dlines d); [|discriminate]. reflexivity.
    + destruct (d_slines d); [|discriminate]. reflexivity.
    + destruct (d_dlines d); [|discriminate]. reflexivity.
    + reflexivity.
Qed.
Lemma lines_count l : count (lines_of l) = Z.of_nat (length l).
Proof. unfold count, lines_of. now rewrite map_length. Qed.
Lemma header_counts ss ds : Forall2 seg_is ss ds -> forall n1 n2,
  fold_left (fun n d => match d_type d with Unchanged | Change | Delete => n + slc d | Insert => n end) ds n1 = n1 + src_count ss /\
  fold_left (fun n d => match d_type d with Unchanged | Change | Insert => n + dlc d | Delete => n end) ds n2 = n2 + dst_count ss.
Proof.
  induction 1 as [|s d ss ds (S1 & S2 & T) F IH]; intros n1 n2; cbn [fold_left].
  - change (src_count []) with 0. change (dst_count []) with 0. lia.
  - rewrite src_count_cons, dst_count_cons, <- S1, <- S2, !lines_count. 
    assert (K : match d_type d with Unchanged | Change | Delete => n1 + slc d | Insert => n1 end = n1 + slc d /\
      match d_type d with Unchanged | Change | Insert => n2 + dlc d | Delete => n2 end = n2 + dlc d).
    { unfold slc, dlc. destruct s as [ls|[|x r] [|y a]]; cbn [src_lines dst_lines] in *; rewrite T; split; auto.
      - destruct (d_slines d); [|discriminate]. cbn. lia.
      - destruct (d_slines d); [|discriminate]. cbn. lia.
      - destruct (d_dlines d); [|discriminate]. cbn. lia. }
    destruct K as [-> ->]. destruct (IH (n1 + slc d) (n2 + dlc d)) as [-> ->]. unfold slc, dlc, count, str, chr. lia.
Qed.
Lemma recreate_hunk_text u p : hunk_is u p -> Forall seg_terminated (uh_segs u) ->
  recreate_hunk_of (fst p) (snd p) = concat (hunk_text (rewritten_hunk u)).
Proof.
  intros (A & B & F & _ & SG & _ & _) T. unfold recreate_hunk_of. destruct (header_counts _ _ SG 0 0) as [-> ->].
  rewrite A, B, F. unfold hunk_text, rewritten_hunk. cbn [uh_a uh_b uh_omit1 uh_omit2 uh_function uh_segs concat].
  rewrite !Z.add_0_l. set (n1 := src_count (uh_segs u)). set (n2 := dst_count (uh_segs u)).
  assert (E : concat (map recreate_difference (snd p)) = concat (concat (map seg_text (uh_segs u)))).
  { clear -SG T. induction SG as [|s d ss ds H SG IH]; [reflexivity|]. inversion_clear T. cbn [map concat].
    rewrite concat_app, IH by assumption. f_equal. now apply recreate_seg. }
  rewrite E.
  assert (SD : forall n a, side_text false (if Z.eqb n 0 then a + 1 else a) n = number a ++ lit "," ++ number n).
  { intros n a. unfold side_text. rewrite andb_false_r. destruct (Z.eqb_spec n 0) as [->|]; [|reflexivity].
    rewrite Z.add_simpl_r, number_zero. reflexivity. }
  rewrite !SD, <- !app_assoc. repeat f_equal. destruct (uh_function u); reflexivity.
Qed.
Lemma recreate_hunks_text st hs us : Forall (fun p => deref_all st (h_diffs (fst p)) = Ok (snd p)) hs ->
  Forall2 hunk_is us hs -> Forall (fun h => Forall seg_terminated (uh_segs h)) us ->
  recreate_hunks st (map fst hs) = Ok (concat (concat (map hunk_text (map rewritten_hunk us)))).
Proof.
  intros D F T. revert T D. induction F as [|u p us hs H F IH]; intros T D; [reflexivity|].
  inversion_clear T as [|? ? T1 T2]. inversion_clear D as [|? ? D1 D2]. cbn [map recreate_hunks].
  assert (h_type (fst p) = HNormal) as -> by (destruct H as (_ & _ & _ & H & _); exact H).
  unfold recreate_hunk. rewrite D1. cbn [bind]. rewrite IH by assumption. cbn [bind]. cbn [concat]. rewrite concat_app.
  now rewrite (recreate_hunk_text u p H T1).
Qed.
Lemma recreate_patch p m : patch_is p m -> rewritable p -> recreate_diff m = Ok (concat (patch_text (rewritten p))).
Proof.
  intros ([N1 N2 _ _ N5 N6 N7 N8] & hs & [[C1 C2 _ _ _ _] _] & F) [[S1 S2] T]. unfold recreate_diff. rewrite C1.
  rewrite (recreate_hunks_text _ _ (up_hunks p) C2 F T). cbn [bind]. unfold recreate_header, patch_text, rewritten.
  cbn [up_before up_old up_new up_stamp1 up_stamp2 up_more1 up_more2 up_hunks app].
  rewrite N1, N2, N5, N6, N7, N8. cbn [concat]. f_equal.
  unfold heading_text. destruct (up_stamp1 p) as [|c1 t1]; [congruence|]. destruct (up_stamp2 p) as [|c2 t2]; [congruence|].
  rewrite !app_nil_r. repeat (rewrite <- ?app_assoc; cbn [app]). reflexivity.
Qed.
Lemma recreate_list ps ms : Forall2 patch_is ps ms -> Forall rewritable ps ->
  recreate_all ms = Ok (doc_text (mk_ud (map rewritten ps) [])).
Proof.
  intros F R. unfold doc_text, doc_lines. cbn [ud_files ud_after]. rewrite app_nil_r.
  revert R. induction F as [|p m ps ms H F IH]; intros R; [reflexivity|]. inversion_clear R as [|? ? R1 R2].
  cbn [recreate_all map concat]. rewrite (recreate_patch p m H R1). cbn [bind]. rewrite IH by assumption. cbn [bind].
  now rewrite concat_app.
Qed.
Lemma Forall2_permuted {A B} (R : A -> B -> Prop) xs ys zs : Forall2 R xs ys -> Permutation zs ys ->
  exists ws, Permutation ws xs /\ Forall2 R ws zs.
Proof.
  intros F P. apply Permutation_sym in P.
  assert (K : forall (S : B -> A -> Prop) l k, Forall2 (fun a b => S b a) l k -> Forall2 S k l) by (induction 1; constructor; auto).
  destruct (Permutation_Forall2 (P := fun b a => R a b) P (K (fun b a => R a b) _ _ F)) as (ws & P2 & F2).
  exists ws. split; [now apply Permutation_sym|]. clear -F2. induction F2; constructor; auto.
Qed.
(** Whatever was read is printed back, in the order of the models. *)
Theorem C17_recreated_text :
  forall sort d o, (forall l, Permutation (sort l) l) -> doc_ok d -> Forall rewritable (ud_files d) ->
  parse sort (split_lines (doc_text d)) = Ok o ->
  exists ps, Permutation ps (ud_files d) /\ recreate_all (the_models (po_models o)) = Ok (doc_text (mk_ud (map rewritten ps) [])).
Proof.
  intros sort d o HP OK R E. destruct (C16_unified_documents_read_back sort d HP OK) as (o' & E' & _ & _ & ms & P & F).
  rewrite E in E'. injection E' as <-. destruct (Forall2_permuted _ _ _ _ F P) as (ps & P2 & F2).
  exists ps. split; [exact P2|]. apply recreate_list; [exact F2|]. eapply Permutation_Forall; [symmetry; exact P2|exact R].
Qed.
Print Assumptions C17_recreated_text.
Lemma canonical_hunk_same h : canonical_hunk h -> rewritten_hunk h = h.
Proof.
  intros [[O1 O2] [N1 N2] _]. destruct h as [a b o1 o2 f ss]. cbn in *. subst. unfold rewritten_hunk. cbn [uh_a uh_b uh_segs uh_function].
  destruct (Z.eqb_spec (src_count ss) 0); [contradiction|]. destruct (Z.eqb_spec (dst_count ss) 0); [contradiction|]. reflexivity.
Qed.
Lemma canonical_same p : canonical p -> rewritten p = p.
Proof.
  intros [B _ [M1 M2] (n1 & n2 & E1 & E2) H]. destruct p as [before old new s1 s2 m1 m2 hs]. cbn in *. subst. unfold rewritten. cbn.
  rewrite !C02_escaping_round_trips. f_equal. induction H as [|h hs HH H IH]; [reflexivity|]. cbn. now rewrite IH, canonical_hunk_same.
Qed.
Lemma canonical_rewritable p : canonical p -> rewritable p.
Proof. intros [_ S _ _ H]. split; [exact S|]. eapply Forall_impl; [|exact H]. intros h [_ _ T]. exact T. Qed.
Lemma doc_reordered d ps : doc_ok d -> Forall canonical (ud_files d) -> ud_after d = [] -> Permutation ps (ud_files d) -> doc_ok (mk_ud ps []).
Proof.
  intros [OK SO _ _ _ _] CA AF P. assert (CP : Forall canonical ps) by (eapply Permutation_Forall; [symmetry; exact P|exact CA]).
  assert (BE : forall l, Forall canonical l -> Forall (fun ls => ls = []) (map up_before l)).
  { intros l F. apply Forall_map. eapply Forall_impl; [|exact F]. intros p [B _ _ _ _]. exact B. }
  split; cbn [ud_files ud_after].
  - eapply Permutation_Forall; [symmetry; exact P|exact OK].
  - intros ->. apply Permutation_nil in P. congruence.
  - constructor.
  - intros p qs ->. inversion_clear CP as [|? ? [BB _ _ _ _] _]. rewrite BB. constructor.
  - intros p qs ->. inversion_clear CP as [|? ? _ CP']. apply Forall_app. split.
    + eapply Forall_impl; [|apply BE; exact CP']. intros a -> l ls' E. discriminate.
    + constructor; [intros l ls E; discriminate|constructor].
  - intros p qs _ _. rewrite app_nil_r. apply Forall_forall. intros l I. apply in_concat in I as (ls & I1 & I2).
    pose proof (BE _ CP) as F. rewrite Forall_forall in F. rewrite (F ls I1) in I2. destruct I2.
Qed.
(** A document in the form recreateDiff() uses is printed back as it was, file by file in the order of the
    models; the recreated text is read again without a complaint, into models of the same files. *)
Theorem C17_recreate_after_parse_is_identity :
  forall sort d o, (forall l, Permutation (sort l) l) -> doc_ok d -> Forall canonical (ud_files d) -> ud_after d = [] ->
  parse sort (split_lines (doc_text d)) = Ok o ->
  exists ps text, Permutation ps (ud_files d) /\
    recreate_all (the_models (po_models o)) = Ok text /\ text = doc_text (mk_ud ps []) /\
    Forall2 patch_is ps (the_models (po_models o)) /\
    exists o2 ms2, parse sort (split_lines text) = Ok o2 /\ po_malformed o2 = false /\
      Permutation (the_models (po_models o2)) ms2 /\ Forall2 patch_is ps ms2.
Proof.
  intros sort d o HP OK CA AF E. destruct (C16_unified_documents_read_back sort d HP OK) as (o' & E' & _ & _ & ms & P & F).
  rewrite E in E'. injection E' as <-. destruct (Forall2_permuted _ _ _ _ F P) as (ps & P2 & F2).
  assert (CP : Forall canonical ps) by (eapply Permutation_Forall; [symmetry; exact P2|exact CA]).
  exists ps, (doc_text (mk_ud ps [])). split; [exact P2|]. split; [|split; [reflexivity|split; [exact F2|]]].
  - rewrite (recreate_list ps _ F2) by (eapply Forall_impl; [|exact CP]; exact canonical_rewritable).
    do 3 f_equal. clear -CP. induction CP; cbn; [reflexivity|]. now rewrite IHCP, canonical_same.
  - destruct (C16_unified_documents_read_back sort (mk_ud ps []) HP (doc_reordered d ps OK CA AF P2)) as (o2 & A & B & _ & ms2 & D1 & D2).
    exists o2, ms2. auto.
Qed.
Print Assumptions C17_recreate_after_parse_is_identity.
(** One file: the very same text, hence the very same result. *)
Theorem C17_one_file_fixed_point :
  forall sort d o p, (forall l, Permutation (sort l) l) -> doc_ok d -> ud_files d = [p] -> canonical p -> ud_after d = [] ->
  parse sort (split_lines (doc_text d)) = Ok o ->
  recreate_all (the_models (po_models o)) = Ok (doc_text d).
Proof.
  intros sort d o p HP OK EF CA AF E.
  destruct (C17_recreate_after_parse_is_identity sort d o HP OK) as (ps & t & P & R & -> & _); [rewrite EF; auto|exact AF|exact E|].
  rewrite R. rewrite EF in P. apply Permutation_sym, Permutation_length_1_inv in P. subst ps. destruct d. cbn in *. subst. reflexivity.
Qed.
Print Assumptions C17_one_file_fixed_point.

Definition canonical_doc : udoc := mk_ud
  [mk_up [] (escape_path (lit "dir/my file")) (lit "dir/b") (lit "2020-01-01") (lit "2021") None None
     [mk_uh 3 3 false false (lit "int main()") [Ctx [nl "a"; nl ""]; Chg [nl "b"] [nl "c"; nl "d"]; Ctx [nl "e"]];
      mk_uh 20 21 false false [] [Ctx [nl "x"]; Chg [] [nl "y"]]]] [].
Example C17_example : doc_ok canonical_doc /\ Forall canonical (ud_files canonical_doc).
Proof.
  assert (T : forall s, terminated (nl s)) by (intros s; exists (lit s); reflexivity).
  assert (IN : forall c s, existsb (N.eqb c) s = false -> ~ In c s).
  { intros c s H I. rewrite (proj2 (existsb_exists _ _) (ex_intro _ c (conj I (N.eqb_refl c)))) in H. discriminate. }
  split.
  - split.
    + constructor; [|constructor]. split.
      * constructor.
      * split; [discriminate|]. split; apply IN; reflexivity.
      * split; [discriminate|]. split; apply IN; reflexivity.
      * split; [apply IN; reflexivity|]. split; [apply IN; reflexivity|exact I].
      * split; [apply IN; reflexivity|]. split; [apply IN; reflexivity|exact I].
      * constructor; [|constructor; [|constructor]]; split; try (vm_compute; intuition discriminate);
          repeat constructor; cbn [src_lines dst_lines]; try (apply nl_line; reflexivity); intros [? ?]; discriminate.
      * apply Exists_cons_hd. cbn [uh_segs]. apply Exists_cons_tl, Exists_cons_hd. exact I.
    + discriminate.
    + constructor.
    + intros p ps E. injection E as <- <-. constructor.
    + intros p ps E. injection E as <- <-. constructor; [|constructor]. intros l ls E. discriminate.
    + intros p ps E. injection E as <- <-. discriminate.
  - constructor; [|constructor]. split; cbn [up_before up_stamp1 up_stamp2 up_more1 up_more2 up_old up_new up_hunks]; try reflexivity; try (split; discriminate); auto.
    + exists (lit "dir/my file"), (lit "dir/b"). split; reflexivity.
    + repeat apply Forall_cons; try apply Forall_nil; (split; cbn [uh_omit1 uh_omit2 uh_segs]; [auto|split; vm_compute; discriminate|]);
        repeat apply Forall_cons; try apply Forall_nil; split; cbn [src_lines dst_lines]; repeat apply Forall_cons; try apply Forall_nil; apply T.
Qed.

(** * C18 *)
(** An empty side: the recreated text does not have the number that was read. *)
Lemma rewritten_moves h : src_count (uh_segs h) = 0 -> uh_a (rewritten_hunk h) = uh_a h + 1.
Proof. intros E. unfold rewritten_hunk. cbn [uh_a]. now rewrite E. Qed.
Definition round_trip (ls : list str) : res (option (list dmodel) * option (list dmodel)) :=
  do o <- parse (fun l => l) ls; do t <- recreate_all (the_models (po_models o));
  do o2 <- parse (fun l => l) (split_lines t); Ok (po_models o, po_models o2).
Definition lines (l : list string) : list str := map nl l.
(** Three documents that are read without a complaint: without time stamps nothing is left; an empty side
    moves by one line; a line without a newline swallows the line after it. *)
Theorem C18_recreated_diff_parses_refuted :
  (exists ms, round_trip (lines ["--- a"; "+++ b"; "@@ -1 +1 @@"; "-x"; "+y"]%string) = Ok (Some ms, None) /\ length ms = 1%nat) /\
  (exists m1 m2, round_trip (lines ["--- a	1"; "+++ b	2"; "@@ -0,0 +1,2 @@"; "+x"; "+y"]%string) = Ok (Some [m1], Some [m2]) /\
     map h_src (dm_hunks m1) = [1] /\ map h_src (dm_hunks m2) = [2]) /\
  (exists m1 m2, round_trip (lines ["--- a	1"; "+++ b	2"; "@@ -1 +1 @@"; "-x"; "\ No newline at end of file"; "+y"]%string) = Ok (Some [m1], Some [m2]) /\
     map (fun d => (lines_of (d_slines d), lines_of (d_dlines d))) (dm_store m1) = [([lit "x"], [nl "y"])] /\
     map (fun d => (lines_of (d_slines d), lines_of (d_dlines d))) (dm_store m2) = [([nl "x+y"], [])]).
Proof.
  split; [|split].
  - eexists. split; [vm_compute; reflexivity|reflexivity].
  - eexists _, _. split; [vm_compute; reflexivity|]. split; reflexivity.
  - eexists _, _. split; [vm_compute; reflexivity|]. split; reflexivity.
Qed.
Print Assumptions C18_recreated_diff_parses_refuted.

(** * C19 *)
(** The lines of a hunk body, in the order they are printed. *)
Definition hunk_body_lines (ds : list difference) : list str :=
  concat (map (fun d => match d_type d with
                        | Unchanged => map (cons SP) (lines_of (d_dlines d))
                        | Change => map (cons 45%N) (lines_of (d_slines d)) ++ map (cons 43%N) (lines_of (d_dlines d))
                        | Insert => map (cons 43%N) (lines_of (d_dlines d))
                        | Delete => map (cons 45%N) (lines_of (d_slines d))
                        end) ds).
Definition begins_in (cs : list chr) (l : str) : bool := match l with c :: _ => existsb (N.eqb c) cs | [] => false end.
Definition how_many (cs : list chr) (ls : list str) : Z := count (filter (begins_in cs) ls).
Lemma how_many_app cs a b : how_many cs (a ++ b) = how_many cs a + how_many cs b.
Proof. unfold how_many. now rewrite filter_app, count_app. Qed.
Lemma how_many_map cs c ls : how_many cs (map (cons c) ls) = if existsb (N.eqb c) cs then count ls else 0.
Proof.
  unfold how_many, count. induction ls as [|l ls IH]; cbn [map filter begins_in length]; [now destruct (existsb _ _)|].
  destruct (existsb (N.eqb c) cs); cbn [length]; lia.
Qed.
Lemma recreate_body ds : concat (map recreate_difference ds) = concat (hunk_body_lines ds).
Proof.
  unfold hunk_body_lines. induction ds as [|d ds IH]; [reflexivity|]. cbn [map concat]. rewrite concat_app. f_equal; [|exact IH].
  unfold recreate_difference. destruct (d_type d); rewrite ?concat_nothing, ?concat_strings, ?concat_app, ?app_nil_r; reflexivity.
Qed.
Lemma body_counts ds : Forall (fun d => d_type d = Unchanged -> length (d_slines d) = length (d_dlines d)) ds -> forall n1 n2,
  fold_left (fun n d => match d_type d with Unchanged | Change | Delete => n + slc d | Insert => n end) ds n1 = n1 + how_many [SP; 45%N] (hunk_body_lines ds) /\
  fold_left (fun n d => match d_type d with Unchanged | Change | Insert => n + dlc d | Delete => n end) ds n2 = n2 + how_many [SP; 43%N] (hunk_body_lines ds).
Proof.
  unfold hunk_body_lines. induction 1 as [|d ds H F IH]; intros n1 n2; cbn [fold_left map concat].
  - unfold how_many. cbn. lia.
  - rewrite !how_many_app. edestruct IH as [-> ->]. unfold slc, dlc. destruct (d_type d) eqn:E; rewrite ?how_many_app, !how_many_map, ?lines_count; cbn [existsb N.eqb Pos.eqb SP orb];
      rewrite ?(H eq_refl); split; lia.
Qed.
(** The counts in the header of a recreated hunk are the numbers of lines of its body: common and removed
    lines, common and added lines. If the lines are newline-terminated, those are the lines of the text. *)
Theorem C19_recreated_header_counts_body :
  forall h ds, Forall (fun d => d_type d = Unchanged -> length (d_slines d) = length (d_dlines d)) ds ->
  ~ In NL (h_function h) ->
  Forall (fun d => Forall (fun l => exists t, l = t ++ [NL] /\ ~ In NL t) (lines_of (d_slines d) ++ lines_of (d_dlines d))) ds ->
  exists header body, split_lines (recreate_hunk_of h ds) = header :: body /\
    header = lit "@@ -" ++ number (h_src h) ++ lit "," ++ number (how_many (lit " -") body) ++
             lit " +" ++ number (h_dst h) ++ lit "," ++ number (how_many (lit " +") body) ++ lit " @@" ++
             (match h_function h with [] => [] | f => SP :: f end) ++ [NL] /\
    Forall (fun l => begins_in (lit " -+") l = true) body.
Proof.
  intros h ds HU HF HT. destruct (body_counts ds HU 0 0) as [E1 E2].
  exists (lit "@@ -" ++ number (h_src h) ++ lit "," ++ number (how_many (lit " -") (hunk_body_lines ds)) ++
             lit " +" ++ number (h_dst h) ++ lit "," ++ number (how_many (lit " +") (hunk_body_lines ds)) ++ lit " @@" ++
             (match h_function h with [] => [] | f => SP :: f end) ++ [NL]), (hunk_body_lines ds).
  split; [|split; [reflexivity|]].
  - apply C01_split_lossless.
    replace (recreate_hunk_of h ds) with (concat ((lit "@@ -" ++ number (h_src h) ++ lit "," ++ number (how_many (lit " -") (hunk_body_lines ds)) ++
             lit " +" ++ number (h_dst h) ++ lit "," ++ number (how_many (lit " +") (hunk_body_lines ds)) ++ lit " @@" ++
             (match h_function h with [] => [] | f => SP :: f end) ++ [NL]) :: hunk_body_lines ds)).
    + apply lines_of_whole. constructor.
      * exists (lit "@@ -" ++ number (h_src h) ++ lit "," ++ number (how_many (lit " -") (hunk_body_lines ds)) ++
             lit " +" ++ number (h_dst h) ++ lit "," ++ number (how_many (lit " +") (hunk_body_lines ds)) ++ lit " @@" ++
             (match h_function h with [] => [] | f => SP :: f end)).
        split; [rewrite <- !app_assoc; reflexivity|].
        repeat apply no_nl_app; try (apply no_nl_lit; reflexivity); try apply number_no_nl.
        destruct (h_function h); [auto|]. intros [E|I]; [discriminate|auto].
      * unfold hunk_body_lines. apply Forall_concat, Forall_map. eapply Forall_impl; [|exact HT]. intros d W.
        assert (K : forall c ls, c <> NL -> Forall (fun l => exists t, l = t ++ [NL] /\ ~ In NL t) ls -> Forall whole_line (map (cons c) ls)).
        { intros c ls N K. apply Forall_map. eapply Forall_impl; [|exact K]. intros l (t & -> & NT). exists (c :: t). split; [reflexivity|].
          intros [E|I]; auto. }
        apply Forall_app in W as [W1 W2]. destruct (d_type d); try apply Forall_app; try split; apply K; auto; discriminate.
    + cbn [concat]. unfold recreate_hunk_of. rewrite E1, E2, recreate_body, !Z.add_0_l. rewrite <- !app_assoc.
      repeat f_equal. destruct (h_function h); reflexivity.
  - unfold hunk_body_lines. apply Forall_concat, Forall_map. apply Forall_forall. intros d _.
    assert (K : forall c ls, existsb (N.eqb c) (lit " -+") = true -> Forall (fun l => begins_in (lit " -+") l = true) (map (cons c) ls)).
    { intros c ls H. apply Forall_map, Forall_forall. intros l _. exact H. }
    destruct (d_type d); try apply Forall_app; try split; apply K; reflexivity.
Qed.
Print Assumptions C19_recreated_header_counts_body.
Example C19_example :
  recreate_hunk_of (mk_hunk 3 4 (lit "f") HNormal [])
    [more [nl "a"] [nl "a"] (new_diff 3 4 Unchanged); more [nl "b"; nl "b2"] [nl "c"] (new_diff 4 5 Change)] =
  concat (lines ["@@ -3,3 +4,2 @@ f"; " a"; "-b"; "-b2"; "+c"]%string).
Proof. vm_compute. reflexivity. Qed.
