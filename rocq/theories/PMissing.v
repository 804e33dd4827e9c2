(** Reading context diffs with markers for missing newlines. *)
From Coq Require Import String Sorted Permutation.
From Verif Require Import Base QtStr Lev Diff Regex Patterns Parser SpecEdit SpecInline SpecPatch SpecRegex SpecParse SpecText SpecUnified SpecNormal SpecContext SpecMissing
  PRegex PRegexLang PLev PHistory PEditLines PParse PUnified PHeaders PFileHeads PUnifiedDoc PFuel PAnyInput PDefined PropsParse PropsText PUnifiedPrint PUnifiedRead PNormal PNormalDoc PContext PContextDoc.
Local Open Scope Z_scope.

Lemma unmarked_chunk k h : last_chunk_text k h false false = chunk_text h.
Proof. unfold last_chunk_text, chunk_text. now rewrite !app_nil_r. Qed.
Lemma unmarked_chunks k us : chunks_text k us false false = concat (map chunk_text us).
Proof.
  induction us as [|h us IH]; [reflexivity|]. cbn [chunks_text map concat]. destruct us as [|h2 us].
  - cbn [map concat]. now rewrite app_nil_r, unmarked_chunk.
  - rewrite IH. reflexivity.
Qed.
Lemma chunks_text_last k us h o n : chunks_text k (us ++ [h]) o n = concat (map chunk_text us) ++ last_chunk_text k h o n.
Proof.
  induction us as [|u us IH]; [reflexivity|]. cbn [app chunks_text map concat]. destruct (us ++ [h]) as [|v vs] eqn:E; [destruct us; discriminate|].
  rewrite IH, app_assoc. reflexivity.
Qed.
(** * The loop, the last change cut *)
Lemma next_common ss s0 s : Sorted alternate (s0 :: ss ++ [s]) -> ~ common s0 -> ~ common s -> exists ls ss', ss = Ctx ls :: ss'.
Proof.
  intros SO N1 N2. destruct ss as [|[ls|r a] ss'].
  - cbn [app] in SO. pose proof (sorted_next _ _ SO s [] eq_refl) as A. destruct s0, s; cbn in *; tauto.
  - eauto.
  - pose proof (sorted_next _ _ SO (Chg r a) (ss' ++ [s]) eq_refl) as A. destruct s0; cbn in *; tauto.
Qed.
Lemma common_first (f : seg -> list str) ls ss tail mark : (f = old_side \/ f = new_side) -> ls <> [] ->
  length (lit mark) = 2%nat -> lit mark <> lit "  " -> not_begin mark (concat (map f (Ctx ls :: ss)) ++ tail).
Proof.
  intros HF NE L D. cbn [map concat]. assert (f (Ctx ls) = marked "  " ls) as -> by (destruct HF as [-> | ->]; reflexivity).
  rewrite <- app_assoc. apply not_begin_marked; [now rewrite L|intros ->; now apply D|congruence|exact D].
Qed.
Lemma loop_cut r a0 a' ss : forall fuel a b, (S (length ss) < fuel)%nat -> Forall cseg_ok ss -> Sorted alternate (ss ++ [Chg r a0]) ->
  r <> [] -> Forall line_text r -> Forall line_text a' ->
  exists ds d, context_body_loop fuel a b (concat (map old_side ss) ++ marked "! " r) (concat (map new_side ss) ++ marked "! " a') = Ok (ds ++ [d]) /\
    Forall2 seg_is ss ds /\ d_type d = Change /\ lines_of (d_slines d) = r /\ lines_of (d_dlines d) = a'.
Proof.
  induction ss as [|s ss IH]; intros fuel a b L OK SO NR TR TA; (destruct fuel as [|fuel]; [cbn in L; lia|]); cbn [context_body_loop].
  - cbn [map concat app]. exists []. rewrite loop_open by (left; destruct r; [congruence|discriminate]).
    unfold context_removed, context_added, context_changed.
    rewrite <- (app_nil_r (marked "! " r)), <- (app_nil_r (marked "! " a')).
    rewrite !starts_begin by (apply not_begin_marked; try discriminate; try reflexivity; intros _ l x E; discriminate).
    rewrite end_not by (try reflexivity; try discriminate; exact NR). cbn [andb].
    rewrite starts_marked by assumption. cbn [orb].
    rewrite take_marked; [|exact TR|intros l x E; discriminate]. rewrite take_marked; [|exact TA|intros l x E; discriminate].
    destruct (inline_ok r a' a b Change TR TA) as (d & -> & DT & D1 & D2). cbn [bind].
    destruct fuel as [|fuel]; [cbn in L; lia|]. cbn [context_body_loop bind]. exists d. split; [reflexivity|]. split; [constructor|auto].
  - inversion_clear OK as [|? ? OKs OK']. cbn [app] in SO. pose proof SO as SO0. pose proof (sorted_next _ _ SO) as NX. apply Sorted_inv in SO as [SO' _].
    destruct OKs as (T1 & T2 & NE).
    cbn [map concat]. rewrite <- !app_assoc.
    specialize (fun a b => IH fuel a b ltac:(cbn in L; lia) OK' SO' NR TR TA).
    destruct s as [ls|r0 d0]; cbn [src_lines dst_lines] in *.
    + assert (NL' : ls <> []) by tauto. cbn [old_side new_side].
      rewrite loop_open by (left; destruct ls; [congruence|discriminate]).
      unfold context_removed, context_added.
      assert (ST : stuck (concat (map old_side ss) ++ marked "! " r) (concat (map new_side ss) ++ marked "! " a')).
      { right. destruct ss as [|[ls'|r' d'] ss].
        - cbn [map concat app]. rewrite <- (app_nil_r (marked "! " r)). rewrite end_not; try reflexivity; try discriminate. exact NR.
        - destruct (NX _ _ eq_refl).
        - inversion_clear OK' as [|? ? (_ & _ & NN) _]. cbn [src_lines dst_lines] in NN. cbn [map concat]. rewrite <- !app_assoc.
          destruct r' as [|x' r'].
          + destruct d' as [|y' d']; [tauto|]. cbn [new_side]. rewrite (end_not "+ "); [apply andb_false_r|discriminate|reflexivity|discriminate].
          + destruct d' as [|y' d']; cbn [old_side]; rewrite end_not; try reflexivity; discriminate. }
      assert (B1 : forall m (rest : list str), length (lit m) = 2%nat -> lit m <> lit "  " -> not_begin m (marked "  " ls ++ rest)).
      { intros m rest E D. apply not_begin_marked; [rewrite E; reflexivity|intros ->; now apply D|intros ->; congruence|exact D]. }
      rewrite !starts_begin by (apply B1; [reflexivity|discriminate]).
      rewrite !end_marked by (try exact T1; try reflexivity; congruence). cbn [andb].
      assert (LB : forall x y : list str, (length ls <= length (marked "  " ls ++ x) + length (marked "  " ls ++ y))%nat).
      { intros x y. rewrite !app_length. unfold marked. rewrite map_length. unfold str, chr in *. lia. }
      pose proof (take_both_forward ls (length (marked "  " ls ++ concat (map old_side ss) ++ marked "! " r) + length (marked "  " ls ++ concat (map new_side ss) ++ marked "! " a'))
        true true _ _ (LB _ _) T1 eq_refl ST) as TB.
      cbv beta iota in TB. rewrite TB by discriminate.
      destruct (inline_ok ls ls a b Unchanged T1 T1) as (d & -> & DT & D1 & D2). cbn [bind].
      destruct (IH (a + Z.of_nat (length ls)) (b + Z.of_nat (length ls))) as (ds & dl & -> & F & K).
      exists (d :: ds), dl. split; [reflexivity|]. split; [|exact K]. constructor; [|exact F]. repeat split; assumption.
    + destruct (next_common ss (Chg r0 d0) (Chg r a0) SO0) as (cl & ss' & ->); [intros []|intros []|].
      inversion_clear OK' as [|? ? (_ & _ & NN) _]. cbn [src_lines dst_lines] in NN. assert (NC : cl <> []) by tauto.
      assert (AC1 : forall mark, length (lit mark) = 2%nat -> lit mark <> lit "  " -> not_begin mark (concat (map old_side (Ctx cl :: ss')) ++ marked "! " r)).
      { intros. apply common_first; auto. }
      assert (AC2 : forall mark, length (lit mark) = 2%nat -> lit mark <> lit "  " -> not_begin mark (concat (map new_side (Ctx cl :: ss')) ++ marked "! " a')).
      { intros. apply common_first; auto. }
      destruct r0 as [|x0 r0]; [destruct d0 as [|y0 d0]; [tauto|]|destruct d0 as [|y0 d0]].
      * change (old_side (Chg [] (y0 :: d0))) with (@nil str). rewrite app_nil_l. cbn [new_side].
        rewrite loop_open by (right; discriminate). unfold context_removed, context_added.
        rewrite starts_begin by (apply AC1; [reflexivity|discriminate]).
        rewrite starts_marked by (try exact T2; discriminate).
        rewrite take_marked; [|exact T2|apply AC2; [reflexivity|discriminate]].
        destruct (inline_ok [] (y0 :: d0) a b Insert T1 T2) as (d & -> & DT & D1 & D2). cbn [bind].
        destruct (IH a (b + Z.of_nat (length (y0 :: d0)))) as (ds & dl & -> & F & K).
        exists (d :: ds), dl. split; [reflexivity|]. split; [|exact K]. constructor; [|exact F]. repeat split; assumption.
      * change (new_side (Chg (x0 :: r0) [])) with (@nil str). rewrite app_nil_l. cbn [old_side].
        rewrite loop_open by (left; discriminate). unfold context_removed, context_added.
        rewrite starts_marked by (try exact T1; discriminate).
        rewrite take_marked; [|exact T1|apply AC1; [reflexivity|discriminate]].
        destruct (inline_ok (x0 :: r0) [] a b Delete T1 T2) as (d & -> & DT & D1 & D2). cbn [bind].
        destruct (IH (a + Z.of_nat (length (x0 :: r0))) b) as (ds & dl & -> & F & K).
        exists (d :: ds), dl. split; [reflexivity|]. split; [|exact K]. constructor; [|exact F]. repeat split; assumption.
      * cbn [old_side new_side].
        rewrite loop_open by (left; discriminate). unfold context_removed, context_added, context_changed.
        rewrite !starts_begin by (apply not_begin_marked; try discriminate; reflexivity).
        rewrite end_not by (try reflexivity; discriminate). cbn [andb].
        rewrite starts_marked by (try exact T1; discriminate). cbn [orb].
        rewrite take_marked; [|exact T1|apply AC1; [reflexivity|discriminate]].
        rewrite take_marked; [|exact T2|apply AC2; [reflexivity|discriminate]].
        destruct (inline_ok (x0 :: r0) (y0 :: d0) a b Change T1 T2) as (d & -> & DT & D1 & D2). cbn [bind].
        destruct (IH (a + Z.of_nat (length (x0 :: r0))) (b + Z.of_nat (length (y0 :: d0)))) as (ds & dl & -> & F & K).
        exists (d :: ds), dl. split; [reflexivity|]. split; [|exact K]. constructor; [|exact F]. repeat split; assumption.
Qed.
(** * The last hunk of a file *)
Definition cut (b : bool) (ls : list str) : list str := if b then removelast ls ++ [removelast (last ls [])] else ls.
Definition last_chunk_fold (h : chunk) (o n : bool) : list str :=
  [lit "***************" ++ (match ch_function h with [] => [] | f => SP :: f end) ++ [NL];
   lit "*** " ++ lines_text (ch_a h) (src_count (ch_segs h)) ++ lit " ****" ++ [NL]] ++ cut o (old_text (ch_segs h)) ++
  [lit "--- " ++ lines_text (ch_b h) (dst_count (ch_segs h)) ++ lit " ----" ++ [NL]] ++ cut n (new_text (ch_segs h)).
Lemma folded_app a a' b b' : folded a a' -> folded b b' -> folded (a ++ b) (a' ++ b').
Proof. intros F G. induction F; cbn [app]; [exact G|now constructor|now constructor]. Qed.
Lemma own_unmarked l : own_line l -> ~ no_newline_marker l.
Proof. apply (own_not "\ No newline" BSL); [reflexivity|vm_compute; intuition discriminate]. Qed.
Lemma like_own l : hunk_line_like l -> own_line l.
Proof.
  intros (c & t & -> & I & N). split.
  - exists (c :: SP :: t). split; [reflexivity|]. intros [J|[J|J]]; [|discriminate|auto]. subst c. vm_compute in I. intuition discriminate.
  - exists c, (SP :: t ++ [NL]). split; [reflexivity|]. right. exact I.
Qed.
Lemma own_folded ls : Forall own_line ls -> folded ls ls.
Proof. intros F. apply folded_same. eapply Forall_impl; [|exact F]. exact own_unmarked. Qed.
(** A cut line: the mark, a space, a text without newline. *)
Definition cut_line (l : str) : Prop := exists c t, l = c :: SP :: t /\ In c (lit "-+! ") /\ ~ In NL t.
Lemma cut_cases ls : ls <> [] -> Forall hunk_line_like ls -> exists c t, removelast (last ls []) = c :: SP :: t /\ In c (lit "-+! ") /\ ~ In NL t /\
  ls = removelast ls ++ [(c :: SP :: t) ++ [NL]].
Proof.
  intros NE F. destruct (exists_last NE) as (us & l & ->). apply Forall_app in F as [_ F]. inversion_clear F as [|? ? (c & t & -> & I & N) _].
  exists c, t. rewrite !last_last, !removelast_last.
  change (c :: SP :: t ++ [NL]) with ((c :: SP :: t) ++ [NL]). rewrite removelast_last. auto.
Qed.
Lemma cut_folded k b ls : no_newline_marker k -> Forall hunk_line_like ls -> (b = true -> ls <> []) ->
  folded (ls ++ (if b then [k] else [])) (cut b ls).
Proof.
  intros K F NE. assert (OW : Forall own_line ls) by (eapply Forall_impl; [|exact F]; exact like_own).
  destruct b; cbn [cut]; [|rewrite app_nil_r; now apply own_folded].
  destruct (cut_cases ls (NE eq_refl) F) as (c & t & E & I & N & E2). rewrite E. rewrite E2 at 1. rewrite <- app_assoc.
  rewrite E2 in OW. apply Forall_app in OW as [O1 O2]. inversion_clear O2 as [|? ? O2' _].
  apply folded_app; [now apply own_folded|]. cbn [app]. apply (fo_marked (c :: SP :: t) k [] []); [now apply own_unmarked| |exact K|constructor].
  intros [J|[J|J]]; [|discriminate|auto]. subst c. vm_compute in I. intuition discriminate.
Qed.
Lemma text_shown ss : Forall cseg_ok ss -> (existsb removes ss = true -> old_text ss <> []) /\ (existsb adds ss = true -> new_text ss <> []).
Proof.
  intros F. unfold old_text, new_text. split; intros E; rewrite E; apply existsb_exists in E as (s & I & R); intros Q.
  - assert (old_side s = []) as K.
    { destruct (old_side s) as [|x y] eqn:E; [reflexivity|]. assert (In x (concat (map old_side ss))) as J; [|rewrite Q in J; destruct J].
      apply in_concat. exists (old_side s). split; [now apply in_map|rewrite E; now left]. }
    destruct s as [|[|x r] [|y a]]; discriminate.
  - assert (new_side s = []) as K.
    { destruct (new_side s) as [|x y] eqn:E; [reflexivity|]. assert (In x (concat (map new_side ss))) as J; [|rewrite Q in J; destruct J].
      apply in_concat. exists (new_side s). split; [now apply in_map|rewrite E; now left]. }
    destruct s as [|[|x r] [|y a]]; discriminate.
Qed.
Lemma last_chunk_folded k h o n : no_newline_marker k -> chunk_ok h -> (o = true -> existsb removes (ch_segs h) = true) ->
  (n = true -> existsb adds (ch_segs h) = true) -> folded (last_chunk_text k h o n) (last_chunk_fold h o n).
Proof.
  intros K OK HO HN. pose proof (chunk_own h OK) as OW. destruct OK as [_ _ _ _ HS _ _].
  destruct (sides_like _ HS) as [L1 L2]. destruct (text_shown _ HS) as [T1 T2].
  unfold chunk_text in OW. apply Forall_app in OW as [O1 O2]. apply Forall_app in O2 as [_ O2]. apply Forall_app in O2 as [O2 _].
  unfold last_chunk_text, last_chunk_fold. apply folded_app; [now apply own_folded|].
  apply folded_app; [apply cut_folded; auto|]. apply folded_app; [now apply own_folded|]. apply cut_folded; auto.
Qed.
Lemma cut_no_match l : ~ In NL l -> has_match context_line l = false.
Proof.
  intros N. destruct (has_match context_line l) eqn:E; [|reflexivity]. exfalso. apply N.
  apply has_match_lang in E. unfold context_line in E. inversion E as [| |a1 b1 u v L1 L2 Q1 Q2| | | | |]. subst.
  inversion L2 as [| |a2 b2 u2 v2 L3 L4 Q3 Q4| | | | |]. subst. inversion L4 as [| |a3 b3 u3 v3 L5 L6 Q5 Q6| | | | |]. subst.
  inversion L6 as [|p x X Q7 Q8| | | | | |]. subst. apply N.eqb_eq in X. subst.
  apply in_or_app. right. apply in_or_app. right. apply in_or_app. right. now left.
Qed.
Lemma take_lines_stop ts rest : Forall hunk_line_like ts -> (forall l ls, rest = l :: ls -> has_match context_line l = false) ->
  take_context_lines (ts ++ rest) = (ts, rest).
Proof.
  intros F N. induction F as [|l ts (c & t & -> & I & NT) F IH]; cbn [app take_context_lines].
  - destruct rest as [|l ls]; [reflexivity|]. cbn [take_context_lines]. rewrite (N l ls eq_refl). reflexivity.
  - rewrite line_matches by assumption. rewrite IH. reflexivity.
Qed.
Lemma removelast_forall {A} (P : A -> Prop) l : Forall P l -> Forall P (removelast l).
Proof.
  intros F. destruct l as [|x l]; [constructor|]. destruct (@exists_last _ (x :: l)) as (l' & y & E); [discriminate|]. rewrite E in *.
  rewrite removelast_last. now apply Forall_app in F.
Qed.
Lemma take_cut ls rest : ls <> [] -> Forall hunk_line_like ls -> exists c t,
  take_context_lines (cut true ls ++ rest) = (removelast ls, (c :: SP :: t) :: rest) /\ In c (lit "-+! ").
Proof.
  intros NE F. destruct (cut_cases ls NE F) as (c & t & E & I & N & _). exists c, t. split; [|exact I].
  cbn [cut]. rewrite E, <- app_assoc. apply take_lines_stop; [now apply removelast_forall|].
  intros l x H. cbn [app] in H. injection H as <- _. apply cut_no_match. intros [J|[J|J]]; [|discriminate|auto]. subst c. vm_compute in I. intuition discriminate.
Qed.
(** The lines that are left unread. *)
Definition left_over (lo : list str) : Prop :=
  (exists c t ls, lo = (c :: SP :: t) :: ls /\ In c (lit "-+! ")) /\ Forall (fun l => ~ begins "*** " l) lo.
Lemma cut_not_star c (t : str) : In c (lit "-+! ") -> ~ begins "*** " (c :: SP :: t).
Proof. intros I [x X]. injection X as -> _. vm_compute in I. intuition discriminate. Qed.
Lemma like_not_star l : hunk_line_like l -> ~ begins "*** " l.
Proof. intros (c & t & -> & I & _). now apply cut_not_star. Qed.
Lemma cut_no_stars b ls : (b = true -> ls <> []) -> Forall hunk_line_like ls -> Forall (fun l => ~ begins "*** " l) (cut b ls).
Proof.
  intros NE F. destruct b; cbn [cut]; [|eapply Forall_impl; [|exact F]; exact like_not_star].
  destruct (cut_cases ls (NE eq_refl) F) as (c & t & E & I & _). rewrite E. apply Forall_app. split.
  - apply removelast_forall. eapply Forall_impl; [|exact F]; exact like_not_star.
  - constructor; [now apply cut_not_star|constructor].
Qed.
(** The loop of the last hunk, its last new line cut off. *)
Lemma removelast_app_ne {A} (l l' : list A) : l' <> [] -> removelast (l ++ l') = l ++ removelast l'.
Proof. apply removelast_app. Qed.
Lemma removelast_map {A B} (f : A -> B) l : removelast (map f l) = map f (removelast l).
Proof. induction l as [|x l IH]; [reflexivity|]. cbn. destruct l; [reflexivity|]. cbn in *. now rewrite IH. Qed.
Lemma removelast_marked mark ls : removelast (marked mark ls) = marked mark (removelast ls).
Proof. apply removelast_map. Qed.
Lemma sorted_prefix (ss : list seg) s : Sorted alternate (ss ++ [s]) -> Sorted alternate ss.
Proof.
  induction ss as [|x ss IH]; intros H; [constructor|]. cbn [app] in H. apply Sorted_inv in H as [H1 H2]. constructor; [auto|].
  destruct ss; [constructor|]. inversion H2; subst; now constructor.
Qed.
Lemma sorted_replace (ss : list seg) s s' : (common s <-> common s') -> Sorted alternate (ss ++ [s]) -> Sorted alternate (ss ++ [s']).
Proof.
  intros C. induction ss as [|x ss IH]; intros H; [repeat constructor|]. cbn [app] in *. apply Sorted_inv in H as [H1 H2]. constructor; [auto|].
  destruct ss as [|y ss]; cbn [app] in *; inversion H2; subst; constructor; auto. destruct x, s, s'; cbn in *; tauto.
Qed.
Lemma side_last b f ss s : side_of b f (ss ++ [s]) = side_of b f ss ++ (if b then f s else []).
Proof. destruct b; cbn [side_of]; [|reflexivity]. rewrite map_app, concat_app. cbn [map concat]. now rewrite app_nil_r. Qed.
Lemma cut_loop ss s fuel a b : Forall cseg_ok (ss ++ [s]) -> Sorted alternate (ss ++ [s]) -> existsb adds (ss ++ [s]) = true ->
  dst_lines s <> [] -> (common s -> existsb removes (ss ++ [s]) = false) ->
  (length (old_text (ss ++ [s])) + length (removelast (new_text (ss ++ [s]))) < fuel)%nat ->
  exists ds c, context_body_loop fuel a b (old_text (ss ++ [s])) (removelast (new_text (ss ++ [s]))) = Ok (ds ++ c) /\ Forall2 seg_is ss ds /\ last_cut s c.
Proof.
  intros OK SO AD ND CO L. pose proof OK as OK0. apply Forall_app in OK as [OKs OK1]. inversion_clear OK1 as [|? ? (T1 & T2 & _) _].
  assert (SHALL : Forall (fun s0 => (removes s0 = true -> existsb removes (ss ++ [s]) = true) /\ (adds s0 = true -> true = true)) ss).
  { apply Forall_forall. intros s0 I. split; [|reflexivity]. intros H. apply existsb_exists. exists s0. split; [apply in_or_app; auto|exact H]. }
  assert (EN : removelast (new_text (ss ++ [s])) = concat (map new_side ss) ++ removelast (new_side s)).
  { unfold new_text. rewrite AD, map_app, concat_app. cbn [map concat]. rewrite app_nil_r. apply removelast_app.
    destruct s as [[|]|[|] [|]]; cbn in *; congruence || discriminate. }
  rewrite EN in *.
  assert (OT : old_text (ss ++ [s]) = side_of (existsb removes (ss ++ [s])) old_side ss ++ (if existsb removes (ss ++ [s]) then old_side s else [])).
  { unfold old_text. apply side_last. }
  (* the last segment shorter, or gone *)
  assert (SHORT : forall s' : option seg,
    match s' with Some s' => cseg_ok s' /\ (common s <-> common s') /\ removes s' = false /\ (existsb removes (ss ++ [s]) = true -> old_side s' = old_side s) /\ new_side s' = removelast (new_side s)
    | None => removelast (new_side s) = [] /\ (existsb removes (ss ++ [s]) = true -> old_side s = []) end ->
    exists ds, context_body_loop fuel a b (old_text (ss ++ [s])) (concat (map new_side ss) ++ removelast (new_side s)) = Ok ds /\
       Forall2 seg_is (ss ++ match s' with Some x => [x] | None => [] end) ds).
  { intros [s'|].
    - intros (C & CM & RM & EO & E2).
      destruct (context_loop_forward (ss ++ [s']) fuel a b (existsb removes (ss ++ [s])) true) as (ds & E & F).
      + assert (SH : shows (existsb removes (ss ++ [s])) true (ss ++ [s'])).
        { split; [apply orb_true_r|]. apply Forall_app. split; [exact SHALL|]. constructor; [|constructor]. split; [congruence|reflexivity]. }
        pose proof (shows_length _ _ _ SH ltac:(apply Forall_app; auto)) as LL. rewrite !side_last, E2 in LL.
        assert (EO' : (if existsb removes (ss ++ [s]) then old_side s' else []) = (if existsb removes (ss ++ [s]) then old_side s else [])).
        { destruct (existsb removes (ss ++ [s])); [now rewrite EO|reflexivity]. }
        rewrite EO', <- OT in LL. cbn [side_of] in LL. unfold str, chr in *. lia.
      + apply Forall_app; auto.
      + eapply sorted_replace; eauto.
      + split; [apply orb_true_r|]. apply Forall_app. split; [exact SHALL|]. constructor; [|constructor]. split; [congruence|reflexivity].
      + exists ds. split; [|exact F]. rewrite <- E, OT, !side_last, <- E2. f_equal. f_equal. destruct (existsb removes (ss ++ [s])); [|reflexivity]. now rewrite EO.
    - intros (E2 & EO).
      destruct (context_loop_forward ss fuel a b (existsb removes (ss ++ [s])) true) as (ds & E & F).
      + assert (SH : shows (existsb removes (ss ++ [s])) true ss) by (split; [apply orb_true_r|exact SHALL]).
        pose proof (shows_length _ _ _ SH OKs) as LL. cbn [side_of] in LL. rewrite OT, E2, app_nil_r, app_length in L. unfold str, chr in *. lia.
      + exact OKs.
      + eapply sorted_prefix; eauto.
      + split; [apply orb_true_r|exact SHALL].
      + exists ds. rewrite app_nil_r. split; [|exact F]. rewrite <- E, OT, E2, app_nil_r. f_equal.
        destruct (existsb removes (ss ++ [s])); [rewrite EO by reflexivity|]; now rewrite app_nil_r. }
  destruct s as [ls|r d]; cbn [src_lines dst_lines] in *.
  - specialize (CO I). rewrite CO in *. cbn [last_cut]. destruct (removelast ls) as [|x xs] eqn:RL.
    + destruct (SHORT None) as (ds & E & F).
      { split; [|discriminate]. cbn [new_side]. now rewrite removelast_marked, RL. }
      rewrite app_nil_r in F. exists ds, []. rewrite app_nil_r. auto.
    + destruct (SHORT (Some (Ctx (x :: xs)))) as (ds & E & F).
      { split; [|split; [tauto|split; [reflexivity|split; [discriminate|]]]].
        - assert (Forall line_text (x :: xs)) by (rewrite <- RL; now apply removelast_forall). repeat split; auto. intros [Q _]. discriminate.
        - cbn [new_side]. now rewrite removelast_marked, RL. }
      apply Forall2_app_inv_l in F as (ds1 & ds2 & F1 & F2 & ->). inversion F2 as [|? d2 ? ? S2 F3]; subst. inversion F3; subst.
      exists ds1, [d2]. split; [exact E|]. split; [exact F1|]. exists d2. auto.
  - destruct r as [|x0 r].
    + cbn [last_cut]. destruct (removelast d) as [|x xs] eqn:RL.
      * destruct (SHORT None) as (ds & E & F).
        { split; [cbn [new_side]; now rewrite removelast_marked, RL|]. destruct d; reflexivity. }
        rewrite app_nil_r in F. exists ds, []. rewrite app_nil_r. auto.
      * destruct (SHORT (Some (Chg [] (x :: xs)))) as (ds & E & F).
        { split; [|split; [tauto|split; [reflexivity|split]]].
          - assert (Forall line_text (x :: xs)) by (rewrite <- RL; now apply removelast_forall). repeat split; auto. intros [_ Q]. discriminate.
          - intros _. destruct d; reflexivity.
          - cbn [new_side]. now rewrite removelast_marked, RL. }
        apply Forall2_app_inv_l in F as (ds1 & ds2 & F1 & F2 & ->). inversion F2 as [|? d2 ? ? S2 F3]; subst. inversion F3; subst.
        exists ds1, [d2]. split; [exact E|]. split; [exact F1|]. exists d2. auto.
    + assert (RM : existsb removes (ss ++ [Chg (x0 :: r) d]) = true).
      { apply existsb_exists. exists (Chg (x0 :: r) d). split; [apply in_or_app; right; now left|reflexivity]. }
      destruct (loop_cut (x0 :: r) d (removelast d) ss fuel a b) as (ds & dl & E & F & K1 & K2 & K3); auto; [|discriminate|now apply removelast_forall|].
      { assert (SH : shows true true ss) by (split; [reflexivity|]; apply Forall_forall; auto).
        pose proof (shows_length _ _ _ SH OKs) as LL. cbn [side_of] in LL. rewrite OT, RM, !app_length in L. cbn [side_of] in L.
        assert (1 <= length (old_side (Chg (x0 :: r) d)))%nat by (destruct d; cbn; lia). unfold str, chr in *. lia. }
      exists ds, [dl]. split; [|split; [exact F|exists dl; auto]].
      rewrite OT, RM. cbn [side_of old_side new_side]. destruct d as [|y0 d]; [congruence|]. rewrite <- E. f_equal. f_equal. apply removelast_map.
Qed.
Definition head1 (h : chunk) : str := lit "***************" ++ (match ch_function h with [] => [] | f => SP :: f end) ++ [NL].
Definition head2 (h : chunk) : str := lit "*** " ++ (number (ch_a h) ++ lit "," ++ number (ch_a h + src_count (ch_segs h) - 1)) ++ lit " ****" ++ [NL].
Definition head3 (h : chunk) : str := lit "--- " ++ (number (ch_b h) ++ lit "," ++ number (ch_b h + dst_count (ch_segs h) - 1)) ++ lit " ----" ++ [NL].
Lemma fold_shape h o n rest : last_chunk_fold h o n ++ rest =
  head1 h :: head2 h :: (cut o (old_text (ch_segs h)) ++ head3 h :: (cut n (new_text (ch_segs h)) ++ rest)).
Proof. unfold last_chunk_fold. rewrite <- !app_assoc. reflexivity. Qed.
Lemma heads h : chunk_ok h -> exists c1 c2 c3, full_match context_hunk_header1 (head1 h) = Some c1 /\ full_match context_hunk_header2 (head2 h) = Some c2 /\
  full_match context_hunk_header3 (head3 h) = Some c3 /\ captured 1 c1 = ch_function h /\ to_int (captured 1 c2) = ch_a h /\ to_int (captured 1 c3) = ch_b h.
Proof.
  intros [[A1 A2] [B1 B2] [S1 S2] HF HS HA HC].
  destruct (header1_forward (ch_function h) HF) as (c1 & M1 & C1).
  assert (DS : forall z, 0 <= z -> digit_string (number z)) by (intros z Hz; apply number_ok; exact Hz).
  destruct (header2_forward (number (ch_a h)) (number (ch_a h + src_count (ch_segs h) - 1))) as (c2 & M2 & C2); [apply DS; lia|apply DS; lia|].
  destruct (header3_forward (number (ch_b h)) (number (ch_b h + dst_count (ch_segs h) - 1))) as (c3 & M3 & C3); [apply DS; lia|apply DS; lia|].
  exists c1, c2, c3. rewrite C1, C2, C3, !to_int_number by (unfold small; lia).
  split; [unfold head1; destruct (ch_function h); exact M1|]. split; [exact M2|]. split; [exact M3|]. auto.
Qed.
(** Marked on the old side: the hunk is lost. *)
Lemma lost_forward h n rest m : chunk_ok h -> existsb removes (ch_segs h) = true -> (n = true -> existsb adds (ch_segs h) = true) ->
  exists c1 c2 lo, context_hunk_header_at (last_chunk_fold h true n ++ rest) = (Some (c1, c2), tl (tl (last_chunk_fold h true n)) ++ rest) /\
    context_hunk_body c1 c2 (tl (tl (last_chunk_fold h true n)) ++ rest) m = Ok (m, lo ++ rest) /\ left_over lo.
Proof.
  intros OK HR HN. destruct (heads h OK) as (c1 & c2 & c3 & M1 & M2 & M3 & _). destruct OK as [_ _ _ _ HS _ _].
  destruct (sides_like _ HS) as [L1 L2]. destruct (text_shown _ HS) as [T1 T2].
  destruct (take_cut (old_text (ch_segs h)) (head3 h :: (cut n (new_text (ch_segs h)) ++ rest)) (T1 HR) L1) as (c & t & TK & IC).
  exists c1, c2, ((c :: SP :: t) :: head3 h :: cut n (new_text (ch_segs h))). split; [|split].
  - rewrite fold_shape. cbn [context_hunk_header_at]. rewrite M1, M2. f_equal.
    pose proof (fold_shape h true n rest) as E. unfold last_chunk_fold in *. cbn [app tl] in *. injection E as E. symmetry. exact E.
  - assert (E : tl (tl (last_chunk_fold h true n)) ++ rest = cut true (old_text (ch_segs h)) ++ head3 h :: (cut n (new_text (ch_segs h)) ++ rest)).
    { pose proof (fold_shape h true n rest) as E. unfold last_chunk_fold in *. cbn [app tl] in *. injection E as E. exact E. }
    rewrite E. unfold context_hunk_body. rewrite TK.
    assert (full_match context_hunk_header3 (c :: SP :: t) = None) as ->; [|reflexivity].
    apply line_no. intros [x X]. discriminate.
  - split; [exists c, t, (head3 h :: cut n (new_text (ch_segs h))); auto|].
    constructor; [now apply cut_not_star|]. constructor; [intros [x X]; discriminate|]. apply cut_no_stars; auto.
Qed.
(** Marked on the new side only: the last new line is lost. *)
Lemma cut_forward h rest m hs : chunk_ok h -> existsb adds (ch_segs h) = true ->
  (exists ss s, ch_segs h = ss ++ [s] /\ dst_lines s <> [] /\ (common s -> existsb removes (ch_segs h) = false)) -> contents m hs ->
  exists c1 c2 m' p lo, context_hunk_header_at (last_chunk_fold h false true ++ rest) = (Some (c1, c2), tl (tl (last_chunk_fold h false true)) ++ rest) /\
    context_hunk_body c1 c2 (tl (tl (last_chunk_fold h false true)) ++ rest) m = Ok (m', lo ++ rest) /\ left_over lo /\
    contents m' (hs ++ [p]) /\ chunk_cut h p /\ (forall st, with_contents m' [] [] st = with_contents m [] [] st).
Proof.
  intros OK HN (ss & s & ES & ND & CO) HM. destruct (heads h OK) as (c1 & c2 & c3 & M1 & M2 & M3 & C1 & C2 & C3).
  pose proof OK as OK0. destruct OK as [_ _ _ _ HS HA HC].
  destruct (sides_like _ HS) as [L1 L2]. destruct (text_shown _ HS) as [T1 T2].
  destruct (take_cut (new_text (ch_segs h)) rest (T2 HN) L2) as (c & t & TK & IC).
  destruct (cut_loop ss s (S (length (old_text (ch_segs h)) + length (removelast (new_text (ch_segs h))))) (ch_a h) (ch_b h)) as (ds & cu & EL & F & LCU);
    rewrite <- ?ES; try assumption; [lia|]. rewrite <- ES in EL.
  pose proof (context_body_ok _ _ _ _ _ _ EL) as [CT RW].
  assert (E : tl (tl (last_chunk_fold h false true)) ++ rest = old_text (ch_segs h) ++ head3 h :: (cut true (new_text (ch_segs h)) ++ rest)).
  { pose proof (fold_shape h false true rest) as E. unfold last_chunk_fold in *. cbn [app tl] in *. injection E as E. exact E. }
  set (dd := ds ++ cu) in *.
  exists c1, c2.
  exists (with_contents m
        (dm_hunks m ++ [mk_hunk (ch_a h) (ch_b h) (ch_function h) HNormal (seq (length (dm_store m)) (length dd))])
        (dm_diffs m ++ ids_from (length (dm_store m)) dd) (dm_store m ++ map linked dd)).
  exists (mk_hunk (ch_a h) (ch_b h) (ch_function h) HNormal (seq (length (dm_store m)) (length dd)), map linked dd).
  exists [c :: SP :: t]. split; [|split; [|split; [|split; [|split]]]].
  - rewrite fold_shape. cbn [context_hunk_header_at]. rewrite M1, M2. f_equal. symmetry. exact E.
  - rewrite E. unfold context_hunk_body. rewrite take_lines_forward; [|exact L1|].
    + rewrite M3, TK, C1, C2, C3, EL. cbn [bind]. rewrite add_parsed_hunk_ok. reflexivity.
    + intros l ls Q. injection Q as <- _. intros (x & y & X & _). discriminate.
  - split; [exists c, t, []; auto|]. constructor; [now apply cut_not_star|constructor].
  - now apply contents_add.
  - unfold chunk_cut. cbn [fst snd h_src h_dst h_function h_type]. repeat (split; [reflexivity|]). split; [now apply linked_contiguous|]. split.
    + apply Forall_map. eapply Forall_impl; [|exact RW]. exact linked_pristine.
    + exists ss, s, (map linked ds), (map linked cu). split; [exact ES|]. split; [unfold dd; apply map_app|]. split.
      * clear -F. induction F; cbn; constructor; auto using seg_is_linked.
      * assert (SL : forall s0 d, seg_is s0 d -> seg_is s0 (linked d)) by (intros; now apply seg_is_linked).
        unfold last_cut in *. destruct s as [ls|r a].
        { destruct (removelast ls); [now subst|]. destruct LCU as (d & -> & K). exists (linked d). auto. }
        destruct r as [|x0 r].
        { destruct (removelast a); [now subst|]. destruct LCU as (d & -> & K). exists (linked d). auto. }
        destruct LCU as (d & -> & K1 & K2 & K3). exists (linked d). split; [reflexivity|].
        unfold linked. destruct (dtype_eqb (d_type d) Unchanged); cbn; repeat split; assumption.
  - reflexivity.
Qed.
(** * The hunks of a file *)
Definition is_marked (p : mpatch) : bool := (mp_old p || mp_new p)%bool.
Lemma marked_chunks us h o n : forall fuel rest m hs, Forall chunk_ok us -> chunk_ok h -> (o || n = true)%bool ->
  (o = true -> existsb removes (ch_segs h) = true) -> (n = true -> existsb adds (ch_segs h) = true) ->
  (o = false -> n = true -> exists ss s, ch_segs h = ss ++ [s] /\ dst_lines s <> [] /\ (common s -> existsb removes (ch_segs h) = false)) ->
  (S (length us) < fuel)%nat -> contents m hs ->
  exists m' ps lo, context_hunks fuel (concat (map chunk_text us) ++ last_chunk_fold h o n ++ rest) m = Ok (m', lo ++ rest) /\ left_over lo /\
    contents m' (hs ++ ps) /\ (if o then Forall2 chunk_is us ps else exists ps' q, ps = ps' ++ [q] /\ Forall2 chunk_is us ps' /\ chunk_cut h q) /\
    (forall st, with_contents m' [] [] st = with_contents m [] [] st).
Proof.
  induction us as [|u us IH]; intros fuel rest m hs F OK ON HO HN HL L HC; (destruct fuel as [|fuel]; [cbn in L; lia|]); cbn [context_hunks map concat].
  - cbn [app]. destruct fuel as [|fuel]; [cbn in L; lia|].
    assert (ST : forall lo, left_over lo -> context_hunk_header_at (lo ++ rest) = (None, lo ++ rest)).
    { intros lo [(c & t & ls & -> & I) _]. apply no_chunk_at. intros l x E. cbn [app] in E. injection E as <- _.
      intros [y Y]. injection Y as -> _. vm_compute in I. intuition discriminate. }
    destruct o.
    + destruct (lost_forward h n rest m OK (HO eq_refl) HN) as (c1 & c2 & lo & E1 & E2 & LO). rewrite E1, E2. cbn [bind context_hunks].
      exists m, [], lo. rewrite ST by assumption. rewrite app_nil_r. split; [reflexivity|]. split; [exact LO|]. split; [exact HC|]. split; [constructor|reflexivity].
    + destruct n; [|discriminate].
      destruct (cut_forward h rest m hs OK (HN eq_refl) (HL eq_refl eq_refl) HC) as (c1 & c2 & m' & q & lo & E1 & E2 & LO & C & K & W).
      rewrite E1, E2. cbn [bind context_hunks]. rewrite ST by assumption. exists m', [q], lo.
      split; [reflexivity|]. split; [exact LO|]. split; [exact C|]. split; [|exact W]. exists [], q. auto.
  - inversion_clear F as [|? ? OKu F']. cbn [length] in L. rewrite <- app_assoc.
    destruct (chunk_forward u (concat (map chunk_text us) ++ last_chunk_fold h o n ++ rest) m hs OKu) as (c1 & c2 & m1 & p & M & B & C1 & HI & W1).
    { intros l ls E (x & y & X & I). destruct us as [|v us].
      - cbn [map concat app] in E. rewrite fold_shape in E. assert (EQ : head1 h = l) by congruence. unfold head1 in EQ. rewrite <- EQ in X. discriminate.
      - cbn in E. injection E as <- _. discriminate. }
    { exact HC. }
    rewrite M, B. cbn [bind].
    destruct (IH fuel rest m1 (hs ++ [p]) F' OK ON HO HN HL ltac:(lia) C1) as (m' & ps & lo & E & LO & C2 & R & W2).
    exists m', (p :: ps), lo. split; [exact E|]. split; [exact LO|]. rewrite <- app_assoc in C2. split; [exact C2|]. split.
    + destruct o; [constructor; assumption|]. destruct R as (ps' & q & -> & R1 & R2). exists (p :: ps'), q. split; [reflexivity|]. split; [constructor; assumption|exact R2].
    + intros st. rewrite W2. apply W1.
Qed.
(** * Files *)
Definition mpatch_fold (p : mpatch) : list str :=
  let c := mp_patch p in
  cp_before c ++
  [cheading "*** " (cp_old c) (cp_stamp1 c) (cp_rev1 c); cheading "--- " (cp_new c) (cp_stamp2 c) (cp_rev2 c)] ++
  (if is_marked p then concat (map chunk_text (removelast (cp_chunks c))) ++ last_chunk_fold (last (cp_chunks c) (mk_ch 0 0 [] [])) (mp_old p) (mp_new p)
   else concat (map chunk_text (cp_chunks c))).
Lemma skip_left cvs lo ls : Forall (fun l => ~ begins "*** " l) lo -> context_head_of (dialect cvs) (lo ++ ls) = context_head_of (dialect cvs) ls.
Proof.
  intros F. assert (H : forall ls, context_head_of (dialect cvs) ls = context_diff_header (context_header1_of (dialect cvs)) (context_header2_of (dialect cvs)) ls)
    by (destruct cvs; reflexivity). rewrite !H. induction F as [|l lo N F IH]; [reflexivity|]. cbn [app context_diff_header]. rewrite no_cheading by assumption. exact IH.
Qed.
Lemma left_bad cvs lo ls : left_over lo -> bad_next_header (context_header1_of (dialect cvs)) (lo ++ ls) = true.
Proof.
  intros [(c & t & x & -> & I) F]. inversion_clear F as [|? ? N _]. cbn [app bad_next_header]. unfold has_match. rewrite no_cheading by assumption.
  assert (K : forall a b q, b <> SP -> starts_with (a :: b :: q) (c :: SP :: t) = false).
  { intros a b q E. apply starts_false. intros y Y. injection Y as _ Y. congruence. }
  change (lit "Index: ") with (73%N :: 110%N :: lit "dex: "). change (lit "diff ") with (100%N :: 105%N :: lit "ff "). change (lit "-- ") with (45%N :: 45%N :: lit " ").
  rewrite !K by discriminate. reflexivity.
Qed.
Lemma mfiles_forward cvs ps : forall fuel lo after ms bad,
  Forall (fun l => ~ begins "*** " l) lo ->
  Forall (cpatch_ok cvs) (map mp_patch ps) -> Forall marks_ok ps -> Forall cbetween after -> Forall may_resume (tl (map cp_before (map mp_patch ps) ++ [after])) ->
  (length ps < fuel)%nat ->
  exists mss rest, files (context_head_of (dialect cvs)) (hunk_fuel context_hunks) (context_header1_of (dialect cvs)) fuel
      (lo ++ concat (map mpatch_fold ps) ++ after) ms bad = Ok (ms ++ concat mss, (bad || existsb is_marked ps)%bool, rest) /\ Forall2 (marked_is cvs) ps mss.
Proof.
  induction ps as [|p ps IH]; intros fuel lo after ms bad LO OK MK BA R L; (destruct fuel as [|fuel]; [cbn in L; lia|]); cbn [files].
  - exists [], []. cbn [concat existsb]. rewrite app_nil_r, orb_false_r. split; [|constructor]. rewrite skip_left by assumption. cbn [map concat app].
    enough (context_head_of (dialect cvs) after = Ok (None, [])) as -> by reflexivity.
    assert (H : forall ls, context_head_of (dialect cvs) ls = context_diff_header (context_header1_of (dialect cvs)) (context_header2_of (dialect cvs)) ls)
      by (destruct cvs; reflexivity). rewrite H. clear -BA.
    induction BA as [|l ls [_ H _ _] BA IH]; [reflexivity|]. cbn [context_diff_header]. rewrite no_cheading by assumption. exact IH.
  - cbn [map] in OK. inversion_clear OK as [|? ? OKp OK']. inversion_clear MK as [|? ? MKp MK']. cbn [map app tl] in R.
    set (tail := concat (map mpatch_fold ps) ++ after).
    assert (TO : ctail_ok cvs tail).
    { unfold tail. destruct ps as [|p2 ps].
      - cbn in *. inversion_clear R. intros l ls E. left. eapply H; eauto.
      - cbn [map] in OK', R |- *. inversion_clear OK' as [|? ? OKp2 _]. cbn [app] in R. inversion_clear R as [|? ? R1 _].
        cbn [concat]. unfold mpatch_fold at 1. intros l ls E. destruct (cp_before (mp_patch p2)) as [|b bs].
        + right. cbn [app] in E. injection E as <- _. exists (mp_patch p2). auto.
        + left. cbn [app] in E. injection E as <- _. eapply R1. reflexivity. }
    destruct (ctail_ends _ _ TO) as (NE & NH & BN).
    set (body := if is_marked p then concat (map chunk_text (removelast (cp_chunks (mp_patch p)))) ++
         last_chunk_fold (last (cp_chunks (mp_patch p)) (mk_ch 0 0 [] [])) (mp_old p) (mp_new p) else concat (map chunk_text (cp_chunks (mp_patch p)))).
    destruct (chead_forward cvs (mp_patch p) (body ++ tail) OKp) as (m0 & E0 & C0 & NM0).
    assert (SH : lo ++ concat (map mpatch_fold (p :: ps)) ++ after = lo ++ cp_before (mp_patch p) ++
       [cheading "*** " (cp_old (mp_patch p)) (cp_stamp1 (mp_patch p)) (cp_rev1 (mp_patch p));
        cheading "--- " (cp_new (mp_patch p)) (cp_stamp2 (mp_patch p)) (cp_rev2 (mp_patch p))] ++ body ++ tail).
    { cbn [map concat]. unfold mpatch_fold at 1. fold body. unfold tail. rewrite <- !app_assoc. reflexivity. }
    rewrite SH, skip_left by assumption. unfold str, chr in *. rewrite E0. cbn [bind].
    assert (HB : exists m hs lo', hunk_fuel context_hunks (body ++ tail) m0 = Ok (m, lo' ++ tail) /\ contents m hs /\ hunks_left p hs /\
        (forall st, with_contents m [] [] st = with_contents m0 [] [] st) /\ Forall (fun l => ~ begins "*** " l) lo' /\
        bad_next_header (context_header1_of (dialect cvs)) (lo' ++ tail) = is_marked p).
    { unfold hunk_fuel, hunks_left. unfold marks_ok in MKp. pose proof OKp as [_ _ _ _ _ _ CO CN].
      unfold body. destruct (is_marked p) eqn:IM.
      - destruct (exists_last CN) as (us & h & EU). rewrite EU in CO |- *. rewrite removelast_last, last_last, <- app_assoc. apply Forall_app in CO as [CO1 CO2].
        inversion_clear CO2 as [|? ? CO3 _]. destruct (MKp us h EU) as (K1 & K2 & K3).
        destruct (marked_chunks us h (mp_old p) (mp_new p)
          (S (length (concat (map chunk_text us) ++ last_chunk_fold h (mp_old p) (mp_new p) ++ tail))) tail m0 [] CO1 CO3 IM K1 K2 K3) as (m & hs & lo' & E & LO' & C & HL & W); [|exact C0|].
        { rewrite !app_length. pose proof (chunks_count us). unfold last_chunk_fold. cbn [app length]. unfold str, chr in *. lia. }
        exists m, hs, lo'. split; [exact E|]. split; [exact C|]. split; [|split; [exact W|split; [apply LO'|now apply left_bad]]].
        unfold is_marked in IM. destruct (mp_old p); [exact HL|]. cbn [orb] in IM. destruct (mp_new p) eqn:MN; [|exfalso; congruence].
        destruct HL as (ps' & q & -> & H1 & H2). exists us, h, ps', q. auto.
      - destruct (chunks_forward (cp_chunks (mp_patch p)) (S (length (concat (map chunk_text (cp_chunks (mp_patch p))) ++ tail))) tail m0 []) as (m & hs & EH & C & F & W);
          [assumption|exact NE|exact NH| |exact C0|].
        { rewrite app_length. pose proof (chunks_count (cp_chunks (mp_patch p))). unfold str, chr in *. lia. }
        exists m, hs, []. split; [exact EH|]. split; [exact C|]. split; [|split; [exact W|split; [constructor|exact BN]]].
        apply orb_false_elim in IM as [-> ->]. exact F. }
    destruct HB as (m & hs & lo' & EH & C & HL & W & LO' & BD). unfold str, chr in *. rewrite EH. cbn [bind]. rewrite BD.
    set (mine := match dm_diffs m with [] => [] | _ => [m] end).
    assert (AM : append_model ms m = ms ++ mine).
    { unfold append_model, mine. destruct (dm_diffs m); [now rewrite app_nil_r|reflexivity]. }
    rewrite AM.
    destruct (IH fuel lo' after (ms ++ mine) (bad || is_marked p)%bool LO' OK' MK' BA) as (mss & rest & E & FN); [|cbn in L; lia|].
    { destruct ps; cbn in *; [constructor|]. inversion_clear R. assumption. }
    exists (mine :: mss), rest. fold tail in E. rewrite E. cbn [concat existsb]. rewrite <- app_assoc, orb_assoc. split; [reflexivity|].
    constructor; [|exact FN]. exists m, hs. split; [exact C|]. split; [exact HL|]. split; [|reflexivity].
    eapply named_contents; [exact W|]. exact NM0.
Qed.
(** * Documents *)
Lemma mpatch_folded k cvs p : no_newline_marker k -> cpatch_ok cvs (mp_patch p) -> marks_ok p -> folded (mpatch_text k p) (mpatch_fold p).
Proof.
  intros K OK MK. unfold mpatch_text, mpatch_fold. destruct OK as [B O N S1 S2 _ CO CN].
  apply folded_app; [|apply folded_app].
  - apply folded_same. eapply Forall_impl; [|exact B]. intros l [_ _ _ H]. exact H.
  - apply own_folded. constructor; [|constructor; [|constructor]]; (apply cheading_own; auto; [eexists _, _; split; [reflexivity|vm_compute; tauto]|now apply no_nl_lit]).
  - assert (OW : forall us, Forall chunk_ok us -> folded (concat (map chunk_text us)) (concat (map chunk_text us))).
    { intros us F. apply own_folded. apply Forall_concat, Forall_map. eapply Forall_impl; [|exact F]. exact chunk_own. }
    unfold is_marked. destruct (mp_old p || mp_new p)%bool eqn:IM.
    + destruct (exists_last CN) as (us & h & EU). destruct (MK us h EU) as (K1 & K2 & _). rewrite EU in *. rewrite removelast_last, last_last, chunks_text_last.
      apply Forall_app in CO as [CO1 CO2]. inversion_clear CO2 as [|? ? CO3 _]. apply folded_app; [auto|]. now apply last_chunk_folded.
    + apply orb_false_elim in IM as [-> ->]. rewrite unmarked_chunks. auto.
Qed.
Lemma mdoc_all k cvs d (P : str -> Prop) : cdoc_ok cvs (mk_cd (map mp_patch (md_files d)) (md_after d)) ->
  (forall l, cbetween l -> In l (concat (map cp_before (map mp_patch (md_files d))) ++ md_after d) -> P l) -> (forall l, own_line l -> P l) -> P k ->
  Forall P (mdoc_lines k d).
Proof.
  intros OK A B K. pose proof (fun l => aside_between cvs _ l OK) as AB. unfold asides in AB. cbn [cd_files cd_after] in AB.
  destruct OK as [F _ _ _ _ _]. cbn [cd_files] in F.
  assert (A' : forall l, In l (concat (map cp_before (map mp_patch (md_files d))) ++ md_after d) -> P l) by (intros l I; auto).
  unfold mdoc_lines. apply Forall_app. split; [|apply Forall_forall; intros l I; apply A', in_or_app; auto].
  apply Forall_forall. intros l I. apply in_concat in I as (ls & I1 & I2). apply in_map_iff in I1 as (p & <- & I1).
  rewrite Forall_forall in F. destruct (F (mp_patch p) (in_map _ _ _ I1)) as [_ O N S1 S2 _ CH CN]. unfold mpatch_text in I2.
  apply in_app_or in I2 as [I2|I2].
  - apply A', in_or_app. left. apply in_concat. exists (cp_before (mp_patch p)). split; [now apply in_map, in_map|exact I2].
  - cbn [app] in I2. destruct I2 as [<-|[<-|I2]].
    + apply B, cheading_own; auto; [eexists _, _; split; [reflexivity|vm_compute; tauto]|now apply no_nl_lit].
    + apply B, cheading_own; auto; [eexists _, _; split; [reflexivity|vm_compute; tauto]|now apply no_nl_lit].
    + destruct (exists_last CN) as (us & h & EU). rewrite EU in *. rewrite chunks_text_last in I2.
      assert (OW : forall x, In x (concat (map chunk_text (us ++ [h]))) -> P x).
      { intros x J. apply B. assert (Q : Forall own_line (concat (map chunk_text (us ++ [h])))).
        { apply Forall_concat, Forall_map. eapply Forall_impl; [|exact CH]. exact chunk_own. }
        rewrite Forall_forall in Q. auto. }
      rewrite map_app, concat_app in OW. cbn [map concat] in OW. rewrite app_nil_r in OW.
      apply in_app_or in I2 as [I2|I2]; [apply OW, in_or_app; auto|].
      unfold last_chunk_text in I2. unfold chunk_text in OW.
      apply in_app_or in I2 as [I2|I2]; [apply OW, in_or_app; right; apply in_or_app; auto|].
      assert (KB : forall b : bool, In l (if b then [k] else []) -> P l) by (intros [] J; [destruct J as [<-|[]]; exact K|destruct J]).
      apply in_app_or in I2 as [I2|I2].
      { apply in_app_or in I2 as [I2|I2]; [|eauto]. apply OW, in_or_app; right; apply in_or_app; right; apply in_or_app; auto. }
      apply in_app_or in I2 as [I2|I2]; [apply OW, in_or_app; right; apply in_or_app; right; apply in_or_app; right; apply in_or_app; auto|].
      apply in_app_or in I2 as [I2|I2]; [|eauto]. apply OW, in_or_app; right; apply in_or_app; right; apply in_or_app; right; apply in_or_app; auto.
Qed.
