(** Parsing printed unified documents. *)
From Coq Require Import String Sorted Permutation.
From Verif Require Import Base QtStr Lev Diff Regex Patterns Parser SpecEdit SpecInline SpecPatch SpecParse SpecText SpecUnified
  PRegex PRegexLang PLev PHistory PEditLines PParse PUnified PHeaders PFileHeads PUnifiedDoc PFuel PAnyInput PDefined PropsParse PropsText.
Local Open Scope Z_scope.

(** * Numbers *)
Lemma digit_chr n : 0 <= n -> is_digit (Z.to_N (48 + n mod 10)) = true /\ Z.of_N (Z.to_N (48 + n mod 10)) - 48 = n mod 10.
Proof.
  intros H. pose proof (Z.mod_pos_bound n 10 ltac:(lia)). split; [|lia].
  unfold is_digit. apply andb_true_intro. split; apply N.leb_le; lia.
Qed.
Lemma number_aux_ok fuel : forall n acc, 0 <= n < 2 ^ Z.of_nat fuel -> (0 < fuel)%nat ->
  forallb is_digit acc = true ->
  forallb is_digit (number_aux fuel n acc) = true /\ number_aux fuel n acc <> [] /\
  digits_value 0 (number_aux fuel n acc) = digits_value n acc.
Proof.
  induction fuel as [|fuel IH]; intros n acc H L F; [lia|]. cbn [number_aux].
  destruct (digit_chr n) as [D V]; [lia|].
  assert (F' : forallb is_digit (Z.to_N (48 + n mod 10) :: acc) = true) by (cbn [forallb]; now rewrite D, F).
  destruct (Z.ltb_spec n 10).
  - split; [exact F'|]. split; [discriminate|]. cbn [digits_value]. rewrite V. f_equal. rewrite Z.mod_small; lia.
  - rewrite Nat2Z.inj_succ, Z.pow_succ_r in H by lia.
    destruct fuel as [|fuel]; [cbn in H; lia|].
    destruct (IH (n / 10) (Z.to_N (48 + n mod 10) :: acc)) as (A & B & C); [|lia|exact F'|].
    + split; [apply Z.div_pos; lia|]. apply Z.div_lt_upper_bound; lia.
    + split; [exact A|]. split; [exact B|]. rewrite C. cbn [digits_value]. rewrite V. f_equal.
      pose proof (Z.div_mod n 10). lia.
Qed.
Lemma number_ok n : 0 <= n -> digit_string (number n) /\ digits_value 0 (number n) = n.
Proof.
  intros H. unfold number. destruct (Z.ltb_spec n 0); [lia|].
  destruct (number_aux_ok (S (Z.to_nat (Z.log2_up (n + 1)))) n []) as (A & B & C); [|lia|reflexivity|].
  - split; [lia|]. rewrite Nat2Z.inj_succ, Z2Nat.id by apply Z.log2_up_nonneg.
    pose proof (Z.log2_up_nonneg (n + 1)).
    assert (n + 1 <= 2 ^ Z.log2_up (n + 1)).
    { destruct (Z.eq_dec n 0) as [->|]; [cbn; lia|]. apply Z.log2_log2_up_spec. lia. }
    rewrite Z.pow_succ_r by lia. lia.
  - split; [split; assumption|exact C].
Qed.

(** * The lines of the document after folding the markers *)
Definition seg_clean (s : seg) : list str :=
  match s with
  | Ctx ls => map (cons SP) ls
  | Chg r a => map (cons 45%N) r ++ map (cons 43%N) a
  end.
Definition hunk_clean (h : uhunk) : list str := hd [] (hunk_text h) :: concat (map seg_clean (uh_segs h)).
Definition patch_clean (p : upatch) : list str :=
  up_before p ++
  [heading_text (lit "--- ") (up_old p) (up_stamp1 p) (up_more1 p);
   heading_text (lit "+++ ") (up_new p) (up_stamp2 p) (up_more2 p)] ++
  concat (map hunk_clean (up_hunks p)).
Definition doc_clean (d : udoc) : list str := concat (map patch_clean (ud_files d)) ++ ud_after d.

Lemma folded_app a a' b b' : folded a a' -> folded b b' -> folded (a ++ b) (a' ++ b').
Proof. intros H K. induction H; cbn [app]; [exact K| |]; constructor; assumption. Qed.
Lemma folded_concat {A} (f g : A -> list str) l : Forall (fun x => folded (f x) (g x)) l -> folded (concat (map f l)) (concat (map g l)).
Proof. induction 1; cbn; [constructor|]. now apply folded_app. Qed.
Lemma folded_same ls : Forall (fun l => ~ no_newline_marker l) ls -> folded ls ls.
Proof. induction 1; constructor; assumption. Qed.
Lemma ends_nl_app t : ends_with_chr NL (t ++ [NL]) = true.
Proof. apply ends_app. Qed.
Lemma ends_in c s : ends_with_chr c s = true -> In c s.
Proof.
  induction s as [|x s IH]; cbn; [discriminate|]. destruct s.
  - intros H. apply N.eqb_eq in H. auto.
  - intros H. right. apply IH, H.
Qed.
Lemma body_line_cases c l : text_line l ->
  (exists t, l = t ++ [NL] /\ ~ In NL t /\ body_line c l = [c :: l]) \/
  (~ In NL l /\ body_line c l = [c :: l ++ [NL]; no_newline_line]).
Proof.
  intros (t & N & [->| ->] & _).
  - right. split; [exact N|]. unfold body_line. destruct (ends_with_chr NL t) eqn:E; [|reflexivity].
    exfalso. apply N. now apply ends_in.
  - left. exists t. unfold body_line. rewrite ends_nl_app. auto.
Qed.
Lemma not_marker_chr c l : c <> BSL -> ~ no_newline_marker (c :: l).
Proof. intros N [x E]. cbn in E. injection E as E _. apply N. exact E. Qed.
Lemma folded_body c l : c <> BSL -> c <> NL -> text_line l -> folded (body_line c l) [c :: l].
Proof.
  intros N N2 H. destruct (body_line_cases c l H) as [(t & -> & NT & ->)|[NT ->]].
  - apply folded_same. constructor; [now apply not_marker_chr|constructor].
  - change (c :: l ++ [NL]) with ((c :: l) ++ [NL]). apply fo_marked; [now apply not_marker_chr| | |constructor].
    + intros [E|I]; [now apply N2|now apply NT].
    + exists (lit " at end of file" ++ [NL]). reflexivity.
Qed.
Lemma folded_body_lines c ls : c <> BSL -> c <> NL -> Forall text_line ls -> folded (body_lines c ls) (map (cons c) ls).
Proof.
  intros N N2 H. unfold body_lines. induction H as [|l ls HL H IH]; [constructor|]. cbn [map concat].
  apply (folded_app _ [c :: l]); [now apply folded_body|exact IH].
Qed.
Lemma folded_seg s : seg_ok s -> folded (seg_text s) (seg_clean s).
Proof.
  intros (A & B & _). destruct s as [ls|r a]; cbn [seg_text seg_clean src_lines dst_lines] in *.
  - now apply folded_body_lines.
  - apply folded_app; now apply folded_body_lines.
Qed.
Lemma folded_hunk h : hunk_ok h -> folded (hunk_text h) (hunk_clean h).
Proof.
  intros [_ _ _ _ _ H _]. unfold hunk_text, hunk_clean. cbn [hd hunk_text].
  apply fo_keep; [apply not_marker_chr; discriminate|]. apply folded_concat.
  eapply Forall_impl; [|exact H]. exact folded_seg.
Qed.
Lemma folded_between ls : Forall between_line ls -> folded ls ls.
Proof. intros H. apply folded_same. eapply Forall_impl; [|exact H]. intros l []. assumption. Qed.
Lemma folded_patch p : patch_ok p -> folded (patch_text p) (patch_clean p).
Proof.
  intros [A _ _ _ _ B _]. unfold patch_text, patch_clean. apply folded_app; [now apply folded_between|].
  apply folded_app.
  - apply folded_same. repeat constructor; apply not_marker_chr; discriminate.
  - apply folded_concat. eapply Forall_impl; [|exact B]. exact folded_hunk.
Qed.
Lemma folded_doc d : doc_ok d -> folded (doc_lines d) (doc_clean d).
Proof.
  intros [A _ B _ _ _]. unfold doc_lines, doc_clean. apply folded_app; [|now apply folded_between].
  apply folded_concat. eapply Forall_impl; [|exact A]. exact folded_patch.
Qed.

(** * The document as a text *)
Definition whole_line (l : str) : Prop := exists t, l = t ++ [NL] /\ ~ In NL t.
Lemma lines_of_whole ls : Forall whole_line ls -> lines_of_text (concat ls) ls.
Proof.
  intros H. split.
  - reflexivity.
  - eapply Forall_impl; [|exact H]. intros l (t & -> & _). destruct t; discriminate.
  - intros l pre post I E. rewrite Forall_forall in H. destruct (H l I) as (t & -> & N).
    destruct post as [|y post] using rev_ind; [reflexivity|]. clear IHpost. exfalso.
    change (NL :: post ++ [y]) with ((NL :: post) ++ [y]) in E. rewrite app_assoc in E.
    apply app_inj_tail in E as [E _]. apply N. rewrite E. apply in_or_app. right. left. reflexivity.
  - intros pre l post E _. rewrite Forall_forall in H. destruct (H l) as (t & -> & _); [rewrite E; apply in_or_app; right; left; reflexivity|]. eauto.
Qed.
Lemma whole_body c ls : c <> NL -> Forall text_line ls -> Forall whole_line (body_lines c ls).
Proof.
  intros N H. unfold body_lines. induction H as [|l ls HL H IH]; [constructor|]. cbn [map concat].
  apply Forall_app. split; [|exact IH].
  destruct (body_line_cases c l HL) as [(t & -> & NT & ->)|[NT ->]].
  - repeat constructor. exists (c :: t). split; [reflexivity|]. intros [E|I]; auto.
  - constructor; [|constructor; [|constructor]].
    + exists (c :: l). split; [reflexivity|]. intros [E|I]; auto.
    + exists (lit "\ No newline at end of file"). split; [reflexivity|]. vm_compute. intuition discriminate.
Qed.
Lemma digits_no_nl s : forallb is_digit s = true -> ~ In NL s.
Proof. intros H I. rewrite forallb_forall in H. apply H in I. discriminate. Qed.
Lemma count_nonneg {A} (l : list A) : 0 <= count l.
Proof. unfold count. lia. Qed.
Lemma side_no_nl o a n : 1 <= a -> 0 <= n -> ~ In NL (side_text o a n).
Proof.
  intros A B. unfold side_text.
  destruct (number_ok (a - 1)) as [[_ D0] _]; [lia|]. destruct (number_ok a) as [[_ D1] _]; [lia|].
  destruct (number_ok n) as [[_ D2] _]; [lia|]. apply digits_no_nl in D0, D1, D2.
  assert (C : forall s, ~ In NL s -> ~ In NL (lit "," ++ s)).
  { intros s H I. apply in_app_or in I as [I|I]; [vm_compute in I; intuition discriminate|auto]. }
  destruct (Z.eqb n 0); [|destruct (_ && _)%bool]; [| assumption |].
  - intros I. apply in_app_or in I as [I|I]; [auto|vm_compute in I; intuition discriminate].
  - intros I. apply in_app_or in I as [I|I]; [auto|]. exact (C _ D2 I).
Qed.
Lemma no_nl_app a b : ~ In NL a -> ~ In NL b -> ~ In NL (a ++ b).
Proof. intros A B I. apply in_app_or in I as [I|I]; auto. Qed.
Lemma no_nl_lit s : negb (existsb (N.eqb NL) (lit s)) = true -> ~ In NL (lit s).
Proof.
  intros H I. apply negb_true_iff in H. apply not_true_iff_false in H. apply H. apply existsb_exists. exists NL. split; [exact I|reflexivity].
Qed.
Lemma whole_hunk h : hunk_ok h -> Forall whole_line (hunk_text h).
Proof.
  intros [[A _] [B _] _ _ F H _]. unfold hunk_text. constructor.
  - exists (lit "@@ -" ++ side_text (uh_omit1 h) (uh_a h) (src_count (uh_segs h)) ++
      lit " +" ++ side_text (uh_omit2 h) (uh_b h) (dst_count (uh_segs h)) ++ lit " @@" ++
      match uh_function h with [] => [] | f => SP :: f end).
    split; [rewrite <- !app_assoc; reflexivity|].
    repeat apply no_nl_app; try (apply no_nl_lit; reflexivity).
    + apply side_no_nl; [lia|apply count_nonneg].
    + apply side_no_nl; [lia|apply count_nonneg].
    + destruct (uh_function h); [auto|]. intros [E|I]; [discriminate|auto].
  - rewrite Forall_forall. intros l I. apply in_concat in I as (ls & I1 & I2). apply in_map_iff in I1 as (s & <- & I1).
    rewrite Forall_forall in H. destruct (H s I1) as (T1 & T2 & _). 
    assert (W : Forall whole_line (seg_text s)).
    { destruct s; cbn [seg_text src_lines dst_lines] in *; [now apply whole_body|]. apply Forall_app. split; now apply whole_body. }
    rewrite Forall_forall in W. auto.
Qed.
Lemma whole_heading mark n t x : ~ In NL mark -> name_ok n -> stamp_ok t x -> whole_line (heading_text mark n t x).
Proof.
  intros M (_ & _ & N) (_ & T & X). unfold heading_text.
  exists (mark ++ n ++ match t with [] => [] | _ => TAB :: t ++ match x with None => [] | Some x => TAB :: x end end).
  split; [rewrite <- !app_assoc; reflexivity|]. apply no_nl_app; [exact M|]. apply no_nl_app; [exact N|].
  destruct t as [|c t]; [auto|]. intros [E|I]; [discriminate|]. revert I. apply no_nl_app; [exact T|].
  destruct x; [|auto]. intros [E|I]; [discriminate|auto].
Qed.
Lemma whole_patch p : patch_ok p -> Forall whole_line (patch_text p).
Proof.
  intros [A B C D E F _]. unfold patch_text. apply Forall_app. split.
  - eapply Forall_impl; [|exact A]. intros l [H _ _ _]. exact H.
  - apply Forall_app. split.
    + repeat constructor; apply whole_heading; auto; apply no_nl_lit; reflexivity.
    + apply Forall_concat. apply Forall_map. eapply Forall_impl; [|exact F]. exact whole_hunk.
Qed.
Lemma whole_doc d : doc_ok d -> Forall whole_line (doc_lines d).
Proof.
  intros [A _ B _ _ _]. unfold doc_lines. apply Forall_app. split.
  - apply Forall_concat. apply Forall_map. eapply Forall_impl; [|exact A]. exact whole_patch.
  - eapply Forall_impl; [|exact B]. intros l [H _ _ _]. exact H.
Qed.
Lemma split_doc d : doc_ok d -> split_lines (doc_text d) = doc_lines d.
Proof. intros H. apply C01_split_lossless. apply lines_of_whole. now apply whole_doc. Qed.

(** * Hunk bodies *)
Lemma take_context_fwd (ts : list str) : forall rest a b ca cb d,
  count ts <= ca -> count ts <= cb ->
  (counting (ca - count ts) (cb - count ts) = false \/ match rest with l :: _ => starts_with [SP] l = false | [] => True end) ->
  take_context (map (cons SP) ts ++ rest) a b ca cb d =
  (more ts ts d, mk_uc rest (a + count ts) (b + count ts) (ca - count ts) (cb - count ts)).
Proof.
  unfold count. induction ts as [|t ts IH]; intros rest a b ca cb d LA LB ST; cbn [map app length Z.of_nat] in *.
  - rewrite more_nil, !Z.add_0_r, !Z.sub_0_r in *. destruct rest as [|l rest]; [reflexivity|]. cbn [take_context].
    destruct ST as [-> | ->]; [rewrite andb_false_r|]; reflexivity.
  - cbn [take_context]. rewrite starts_with_hd, N.eqb_refl. cbn [andb].
    assert (C : counting ca cb = true).
    { unfold counting. destruct (Z.eqb_spec ca 0); [lia|reflexivity]. }
    rewrite C. cbn [skipn]. rewrite add_both. rewrite IH; [|lia|lia|].
    + rewrite more_more. cbn [app]. f_equal. f_equal; lia.
    + rewrite Zpos_P_of_succ_nat in ST.
      replace (ca - 1 - Z.of_nat (length ts)) with (ca - Z.succ (Z.of_nat (length ts))) by lia.
      replace (cb - 1 - Z.of_nat (length ts)) with (cb - Z.succ (Z.of_nat (length ts))) by lia. exact ST.
Qed.
Lemma take_removed_fwd (ts : list str) : forall rest a b ca cb d,
  count ts <= ca ->
  (counting (ca - count ts) cb = false \/ match rest with l :: _ => starts_with [45%N] l = false | [] => True end) ->
  take_removed (map (cons 45%N) ts ++ rest) a b ca cb d =
  (more ts [] d, mk_uc rest (a + count ts) b (ca - count ts) cb).
Proof.
  unfold count. induction ts as [|t ts IH]; intros rest a b ca cb d LA ST; cbn [map app length Z.of_nat] in *.
  - rewrite more_nil, !Z.add_0_r, !Z.sub_0_r in *. destruct rest as [|l rest]; [reflexivity|]. cbn [take_removed].
    destruct ST as [-> | ->]; [rewrite andb_false_r|]; reflexivity.
  - cbn [take_removed]. rewrite starts_with_hd, N.eqb_refl. cbn [andb].
    assert (C : counting ca cb = true).
    { unfold counting. destruct (Z.eqb_spec ca 0); [lia|reflexivity]. }
    rewrite C. cbn [skipn]. rewrite add_src. rewrite IH; [|lia|].
    + rewrite more_more. cbn [app]. f_equal. f_equal; lia.
    + rewrite Zpos_P_of_succ_nat in ST.
      replace (ca - 1 - Z.of_nat (length ts)) with (ca - Z.succ (Z.of_nat (length ts))) by lia. exact ST.
Qed.
Lemma take_added_fwd (ts : list str) : forall rest a b ca cb d,
  count ts <= cb ->
  (counting ca (cb - count ts) = false \/ match rest with l :: _ => starts_with [43%N] l = false | [] => True end) ->
  take_added (map (cons 43%N) ts ++ rest) a b ca cb d =
  (more [] ts d, mk_uc rest a (b + count ts) ca (cb - count ts)).
Proof.
  unfold count. induction ts as [|t ts IH]; intros rest a b ca cb d LA ST; cbn [map app length Z.of_nat] in *.
  - rewrite more_nil, !Z.add_0_r, !Z.sub_0_r in *. destruct rest as [|l rest]; [reflexivity|]. cbn [take_added].
    destruct ST as [-> | ->]; [rewrite andb_false_r|]; reflexivity.
  - cbn [take_added]. rewrite starts_with_hd, N.eqb_refl. cbn [andb].
    assert (C : counting ca cb = true).
    { unfold counting. destruct (Z.eqb_spec cb 0); [lia|]. now rewrite orb_true_r. }
    rewrite C. cbn [skipn]. rewrite add_dst. rewrite IH; [|lia|].
    + rewrite more_more. cbn [app]. f_equal. f_equal; lia.
    + rewrite Zpos_P_of_succ_nat in ST.
      replace (cb - 1 - Z.of_nat (length ts)) with (cb - Z.succ (Z.of_nat (length ts))) by lia. exact ST.
Qed.
Lemma count_app {A} (a b : list A) : count (a ++ b) = count a + count b.
Proof. unfold count. rewrite app_length. lia. Qed.
Lemma src_count_cons s ss : src_count (s :: ss) = count (src_lines s) + src_count ss.
Proof. unfold src_count. cbn [map concat]. apply count_app. Qed.
Lemma dst_count_cons s ss : dst_count (s :: ss) = count (dst_lines s) + dst_count ss.
Proof. unfold dst_count. cbn [map concat]. apply count_app. Qed.
Lemma counts_nonneg ss : 0 <= src_count ss /\ 0 <= dst_count ss.
Proof. split; apply count_nonneg. Qed.
Lemma counting_zero ca cb : 0 <= ca -> 0 <= cb -> counting ca cb = false <-> ca = 0 /\ cb = 0.
Proof.
  intros A B. unfold counting. destruct (Z.eqb_spec ca 0), (Z.eqb_spec cb 0); cbn; split; try lia; try discriminate; auto.
Qed.
(** How the remaining lines begin, seen from a segment. *)
Definition stops (c : chr) (ss : list seg) (rest : list str) : Prop :=
  (src_count ss = 0 /\ dst_count ss = 0) \/
  match concat (map seg_clean ss) ++ rest with l :: _ => starts_with [c] l = false | [] => True end.
Lemma text_line_short ls : Forall text_line ls -> Forall short ls.
Proof. intros H. eapply Forall_impl; [|exact H]. intros l (t & _ & _ & L). unfold short. lia. Qed.
Lemma Sorted_cons_inv {A} (R : A -> A -> Prop) x l : Sorted R (x :: l) -> Sorted R l /\ match l with [] => True | y :: _ => R x y end.
Proof. intros H. inversion H as [|? ? S HD]; subst. split; [exact S|]. destruct HD; auto. Qed.
Lemma body_forward ss : forall fuel a b rest,
  Forall seg_ok ss -> Sorted may_follow ss -> (length ss < fuel)%nat ->
  (forall l ls, rest = l :: ls -> l <> []) ->
  exists ds, unified_body_loop fuel (mk_uc (concat (map seg_clean ss) ++ rest) a b (src_count ss) (dst_count ss)) = Ok (ds, rest) /\
    Forall2 seg_is ss ds.
Proof.
  induction ss as [|s ss IH]; intros fuel a b rest OK SO L NE; (destruct fuel as [|fuel]; [cbn in L; lia|]).
  - cbn [unified_body_loop map concat app uc_rest]. exists []. split; [|constructor]. destruct rest as [|l ls]; [reflexivity|].
    unfold matches_unified_hunk_line. destruct l as [|x l]; [exfalso; eapply NE; reflexivity|]. cbn [bind].
    change (counting (src_count []) (dst_count [])) with false. now rewrite andb_false_r.
  - inversion_clear OK as [|? ? OKs OK']. apply Sorted_cons_inv in SO as [SO HD]. cbn [length] in L.
    pose proof (counts_nonneg ss) as [CN1 CN2]. destruct OKs as (T1 & T2 & NB).
    rewrite src_count_cons, dst_count_cons. cbn [map concat]. rewrite <- app_assoc.
    destruct s as [ls|r ad]; cbn [seg_clean src_lines dst_lines] in *.
    + destruct ls as [|l0 ls]; [tauto|].
      destruct (IH fuel (a + count (l0 :: ls)) (b + count (l0 :: ls)) rest OK' SO ltac:(lia) NE) as (ds & E & F).
      exists (more (l0 :: ls) (l0 :: ls) (new_diff a b Unchanged) :: ds). split.
      * cbn [unified_body_loop uc_rest map app]. cbn [matches_unified_hunk_line bind]. rewrite N.eqb_refl. cbn [orb andb uc_ca uc_cb uc_a uc_b].
        replace (counting _ _) with true.
        2:{ symmetry. unfold counting, count. cbn [length]. destruct (Z.eqb_spec (Z.of_nat (S (length ls)) + src_count ss) 0); [lia|reflexivity]. }
        rewrite starts_with_hd, N.eqb_refl.
        change ((SP :: l0) :: map (cons SP) ls ++ concat (map seg_clean ss) ++ rest) with
          (map (cons SP) (l0 :: ls) ++ concat (map seg_clean ss) ++ rest).
        rewrite take_context_fwd; [| now apply Z.le_sub_le_add_l; rewrite Z.sub_diag | now apply Z.le_sub_le_add_l; rewrite Z.sub_diag |].
        -- replace (count (l0 :: ls) + src_count ss - count (l0 :: ls)) with (src_count ss) by lia.
           replace (count (l0 :: ls) + dst_count ss - count (l0 :: ls)) with (dst_count ss) by lia.
           rewrite E. reflexivity.
        -- replace (count (l0 :: ls) + src_count ss - count (l0 :: ls)) with (src_count ss) by lia.
           replace (count (l0 :: ls) + dst_count ss - count (l0 :: ls)) with (dst_count ss) by lia.
           destruct ss as [|s2 ss]; [left; reflexivity|]. right. destruct s2 as [l2|r2 a2]; [destruct HD|].
           inversion_clear OK' as [|? ? OKs2 _]. destruct OKs2 as (_ & _ & NB2). cbn [map concat seg_clean src_lines dst_lines] in *.
           destruct r2 as [|x r2]; [|reflexivity]. destruct a2 as [|x a2]; [tauto|reflexivity].
      * constructor; [|exact F]. unfold seg_is. cbn [more set_lines d_slines d_dlines d_type new_diff app src_lines dst_lines].
        rewrite lines_of_new. auto.
    + assert (NN : r <> [] \/ ad <> []) by (destruct r; [right; intros ->; tauto|left; discriminate]).
      set (d0 := let d := more [] ad (more r [] (new_diff a b Unchanged)) in
        if Nat.eqb (length (d_slines d)) 0 then set_type Insert d
        else if Nat.eqb (length (d_dlines d)) 0 then set_type Delete d else set_type Change d).
      assert (exists d, determine_inline d0 = Ok d) as [d ED].
      { assert (~ is_ub (determine_inline d0)).
        { apply (inline_defined r ad); [| |now apply text_line_short|now apply text_line_short].
          - unfold d0. cbn zeta. destruct (Nat.eqb _ _); [|destruct (Nat.eqb _ _)]; cbn; rewrite ?app_nil_r; reflexivity.
          - unfold d0. cbn zeta. destruct (Nat.eqb _ _); [|destruct (Nat.eqb _ _)]; cbn; rewrite ?app_nil_r; reflexivity. }
        pose proof (determine_inline_fuel d0). destruct (determine_inline d0) as [d|w|]; [eauto| |congruence]. exfalso. apply H. exact I. }
      pose proof (change_diff_ok a b r ad d NN ED) as (_ & _ & _ & WT & _ & _ & S1 & S2).
      destruct (IH fuel (a + count r) (b + count ad) rest OK' SO ltac:(lia) NE) as (ds & E & F).
      exists (d :: ds). split.
      * cbn [unified_body_loop uc_rest uc_a uc_b uc_ca uc_cb]. rewrite <- app_assoc.
        assert (H0 : exists x l k, map (cons 45%N) r ++ map (cons 43%N) ad ++ concat (map seg_clean ss) ++ rest = (x :: l) :: k /\ (x = 45%N \/ x = 43%N)).
        { destruct r as [|y r]; [|eexists _, _, _; split; [reflexivity|auto]]. destruct ad as [|y ad]; [tauto|].
          eexists _, _, _; split; [reflexivity|auto]. }
        destruct H0 as (x & l & k & EQ & X). rewrite EQ. cbn [matches_unified_hunk_line bind].
        replace (N.eqb x SP || N.eqb x 43 || N.eqb x 45)%bool with true by (destruct X as [-> | ->]; reflexivity).
        assert (CT : counting (count r + src_count ss) (count ad + dst_count ss) = true).
        { apply not_false_iff_true. rewrite counting_zero by (pose proof (count_nonneg r); pose proof (count_nonneg ad); lia).
          unfold count. destruct r; [|cbn [length]; lia]. destruct ad; [tauto|cbn [length]; lia]. }
        rewrite CT. cbn [andb]. rewrite starts_with_hd. replace (N.eqb x SP) with false by (destruct X as [-> | ->]; reflexivity).
        rewrite <- EQ. rewrite take_removed_fwd; [|now apply Z.le_sub_le_add_l; rewrite Z.sub_diag|].
        -- cbn [uc_rest uc_a uc_b uc_ca uc_cb].
           replace (count r + src_count ss - count r) with (src_count ss) by lia.
           rewrite take_added_fwd; [|now apply Z.le_sub_le_add_l; rewrite Z.sub_diag|].
           ++ replace (count ad + dst_count ss - count ad) with (dst_count ss) by lia.
              unfold d0 in ED. cbn zeta in ED. rewrite ED. cbn [bind]. rewrite E. reflexivity.
           ++ replace (count ad + dst_count ss - count ad) with (dst_count ss) by lia.
              destruct ss as [|s2 ss]; [left; reflexivity|]. right. destruct s2 as [l2|r2 a2]; cbn [map concat seg_clean].
              ** inversion_clear OK' as [|? ? OKs2 _]. destruct OKs2 as (_ & _ & NB2). cbn [src_lines dst_lines] in NB2.
                 destruct l2; [tauto|reflexivity].
              ** destruct HD as [_ HD]. destruct r2; [tauto|reflexivity].
        -- replace (count r + src_count ss - count r) with (src_count ss) by lia.
           destruct ad as [|y ad]; [|right; reflexivity]. cbn [map app]. replace (count []) with 0 by reflexivity. cbn [Z.add].
           destruct ss as [|s2 ss]; [left; reflexivity|]. right. destruct s2 as [l2|r2 a2]; cbn [map concat seg_clean].
           ++ inversion_clear OK' as [|? ? OKs2 _]. destruct OKs2 as (_ & _ & NB2). cbn [src_lines dst_lines] in NB2.
              destruct l2; [tauto|reflexivity].
           ++ destruct HD as [HD _]. tauto.
      * constructor; [|exact F]. unfold seg_is. cbn [src_lines dst_lines]. split; [exact S1|]. split; [exact S2|].
        unfold well_typed in WT. apply determine_inline_shape in ED as (sl & dl & -> & _). cbn [set_lines d_type].
        unfold d0. cbn zeta. cbn [more set_lines d_slines d_dlines new_diff app]. rewrite app_nil_r, !map_length.
        destruct r; cbn [length Nat.eqb]; [reflexivity|]. destruct ad; reflexivity.
Qed.
(** * Hunk headers *)
Definition cnt_text (w : str) : str := match w with [] => [] | _ => lit "," ++ w end.
Lemma s_count (R : Type) g1 g2 (k : str -> caps -> option R) w rest c r :
  w = [] \/ digit_string w ->
  match rest with x :: _ => is_digit x = false | [] => True end ->
  (forall s c, k (44%N :: s) c = None) ->
  (forall x, k rest ((g1, x) :: match w with [] => c | _ => (g2, w) :: c end) = Some (r x)) ->
  exists x, matches (RGroup g1 (RAlt REps (T "," ~~ RGroup g2 digits))) k (cnt_text w ++ rest) c = Some (r x).
Proof.
  intros W X N K. rewrite m_group, m_alt, m_eps. destruct w as [|d w].
  - cbn [cnt_text app]. rewrite K. eauto.
  - destruct W as [W|[_ W]]; [discriminate|]. cbn [cnt_text].
    change ((lit "," ++ d :: w) ++ rest) with (lit "," ++ ((d :: w) ++ rest)). 
    match goal with |- context [k ?s ?cc] => replace (k s cc) with (@None R) by (symmetry; apply N) end.
    rewrite m_seq. unfold T. rewrite s_text, m_group.
    eexists. apply s_plus_longest; [discriminate|exact W|exact X|].
    rewrite group_text. apply K.
Qed.
Lemma header_forward n1 w1 n2 w2 f :
  digit_string n1 -> digit_string n2 -> w1 = [] \/ digit_string w1 -> w2 = [] \/ digit_string w2 -> ~ In NL f ->
  exists c, full_match unified_hunk_header
    (lit "@@ -" ++ (n1 ++ cnt_text w1) ++ lit " +" ++ (n2 ++ cnt_text w2) ++ lit " @@" ++
     (match f with [] => [] | f => SP :: f end) ++ [NL]) = Some c /\
    captured 1 c = n1 /\ captured 3 c = w1 /\ captured 4 c = n2 /\ captured 6 c = w2 /\ captured 7 c = f.
Proof.
  intros [N1 D1] [N2 D2] W1 W2 F. unfold full_match, unified_hunk_header. rewrite <- !app_assoc.
  rewrite m_seq. unfold T at 1. rewrite s_text, m_seq, m_group.
  assert (HC : forall w rest, match cnt_text w ++ SP :: rest with x :: _ => is_digit x = false | [] => True end).
  { intros [|x w] rest; reflexivity. }
  assert (FM : forall c, matches (T " @@" ~~ opt (is SP) ~~ RGroup 7 (star any) ~~ nl)
      (fun s' c => match s' with [] => Some c | _ :: _ => None end)
      (lit " @@" ++ (match f with [] => [] | f => SP :: f end) ++ [NL]) c = Some ((7%nat, f) :: c)).
  { intros c. rewrite m_seq. unfold T. rewrite s_text, m_seq. unfold opt. rewrite m_alt.
    assert (E : forall s, s = f ++ [NL] -> matches (RGroup 7 (star any) ~~ nl)
      (fun s' c => match s' with [] => Some c | _ :: _ => None end) s c = Some ((7%nat, f) :: c)).
    { intros s ->. rewrite m_seq, m_group. apply m_star_longest; [now apply not_nl_any|reflexivity|].
      rewrite group_text. unfold nl. now rewrite s_is. }
    destruct f as [|y f].
    - cbn [app]. rewrite s_is_other by discriminate. rewrite m_eps. now apply E.
    - cbn [app]. rewrite s_is. rewrite E by reflexivity. reflexivity. }
  eassert (SE : forall c, exists x, matches
     (T " +" ~~ RGroup 4 digits ~~ RGroup 5 (RAlt REps (T "," ~~ RGroup 6 digits)) ~~
      T " @@" ~~ opt (is SP) ~~ RGroup 7 (star any) ~~ nl)
     (fun s' c => match s' with [] => Some c | _ :: _ => None end)
     (lit " +" ++ n2 ++ cnt_text w2 ++ lit " @@" ++ (match f with [] => [] | f => SP :: f end) ++ [NL]) c =
     Some ((7%nat, f) :: (5%nat, x) :: match w2 with [] => (4%nat, n2) :: c | _ => (6%nat, w2) :: (4%nat, n2) :: c end)).
  { intros c. rewrite m_seq. unfold T at 1. rewrite s_text, m_seq, m_group.
    destruct (s_count caps 5 6 (matches (T " @@" ~~ opt (is SP) ~~ RGroup 7 (star any) ~~ nl)
      (fun s' c => match s' with [] => Some c | _ :: _ => None end)) w2
      (lit " @@" ++ (match f with [] => [] | f => SP :: f end) ++ [NL]) ((4%nat, n2) :: c)
      (fun x => (7%nat, f) :: (5%nat, x) :: match w2 with [] => (4%nat, n2) :: c | _ => (6%nat, w2) :: (4%nat, n2) :: c end))
      as [x E]; [exact W2|reflexivity|reflexivity|intros x; apply FM|].
    exists x. apply s_plus_longest; [exact N2|exact D2|apply HC|].
    rewrite group_text, m_seq. exact E. }
  destruct (s_count caps 2 3 (matches
     (T " +" ~~ RGroup 4 digits ~~ RGroup 5 (RAlt REps (T "," ~~ RGroup 6 digits)) ~~
      T " @@" ~~ opt (is SP) ~~ RGroup 7 (star any) ~~ nl)
      (fun s' c => match s' with [] => Some c | _ :: _ => None end)) w1
      (lit " +" ++ n2 ++ cnt_text w2 ++ lit " @@" ++ (match f with [] => [] | f => SP :: f end) ++ [NL]) [(1%nat, n1)]
      (fun x => match matches
     (T " +" ~~ RGroup 4 digits ~~ RGroup 5 (RAlt REps (T "," ~~ RGroup 6 digits)) ~~
      T " @@" ~~ opt (is SP) ~~ RGroup 7 (star any) ~~ nl)
     (fun s' c => match s' with [] => Some c | _ :: _ => None end)
     (lit " +" ++ n2 ++ cnt_text w2 ++ lit " @@" ++ (match f with [] => [] | f => SP :: f end) ++ [NL])
      ((2%nat, x) :: match w1 with [] => [(1%nat, n1)] | _ => [(3%nat, w1); (1%nat, n1)] end) with Some c => c | None => [] end))
      as [x E]; [exact W1|reflexivity|reflexivity| |].
  - intros x. edestruct SE as [y ->]. destruct w1; reflexivity.
  - edestruct SE as [y E2]. rewrite E2 in E.
    eexists. split.
    + apply s_plus_longest; [exact N1|exact D1|apply HC|]. rewrite group_text, m_seq. exact E.
    + destruct w1, w2; repeat split; reflexivity.
Qed.
Lemma side_text_shape omit start n : fits_int start -> 0 <= n <= 2147483647 ->
  exists m w, side_text omit start n = m ++ cnt_text w /\ digit_string m /\ (w = [] \/ digit_string w) /\
    hunk_side m w = Some (start, n).
Proof.
  intros [A B] C. unfold side_text, fits_int in *.
  destruct (number_ok n) as [[NN ND] VN]; [lia|].
  assert (TI : forall z, 0 <= z <= 2147483647 -> to_int (number z) = z /\ to_int_opt (number z) = Some z).
  { intros z H. destruct (number_ok z) as [DS V]; [lia|]. rewrite to_int_reads, to_int_opt_reads by exact DS.
    unfold reads. assert (fits (number z) = true) as -> by (unfold fits; rewrite V; apply Z.leb_le; lia). now rewrite V. }
  destruct (Z.eqb_spec n 0) as [->|].
  - exists (number (start - 1)), (lit "0"). split; [reflexivity|]. split; [apply number_ok; lia|].
    split; [right; split; [discriminate|reflexivity]|]. unfold hunk_side. cbn [lit].
    destruct (TI (start - 1)) as [-> _]; [lia|]. cbn. f_equal. f_equal. lia.
  - destruct (Z.eqb_spec n 1) as [->|]; [destruct omit|]; cbn [andb].
    + exists (number start), []. rewrite app_nil_r. split; [reflexivity|]. split; [apply number_ok; lia|]. split; [auto|].
      unfold hunk_side. destruct (TI start) as [-> _]; [lia|reflexivity].
    + exists (number start), (lit "1"). split; [reflexivity|]. split; [apply number_ok; lia|].
      split; [right; split; [discriminate|reflexivity]|].
      unfold hunk_side. destruct (TI start) as [-> _]; [lia|reflexivity].
    + exists (number start), (number n). split; [unfold cnt_text; destruct (number n); [congruence|reflexivity]|].
      split; [apply number_ok; lia|]. split; [right; split; assumption|].
      unfold hunk_side. destruct (TI start) as [-> _]; [lia|]. destruct (TI n) as [_ E]; [lia|].
      destruct (number n) eqn:EN; [congruence|]. rewrite E. destruct (Z.eqb_spec n 0); [lia|reflexivity].
Qed.
Lemma number_no_nl n : ~ In NL (number n).
Proof.
  assert (P : forall fuel k acc, ~ In NL acc -> ~ In NL (number_aux fuel k acc)).
  { induction fuel as [|fuel IH]; intros k acc N; cbn [number_aux]; [exact N|].
    assert (N' : ~ In NL (Z.to_N (48 + k mod 10) :: acc)).
    { intros [E|I]; [|auto]. pose proof (Z.mod_pos_bound k 10 ltac:(lia)). unfold NL in E. lia. }
    destruct (Z.ltb k 10); auto. }
  unfold number. destruct (Z.ltb n 0); [|apply P; intros []]. intros [E|I]; [discriminate|]. revert I. apply P. intros [].
Qed.
