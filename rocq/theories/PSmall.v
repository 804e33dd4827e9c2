(** Reading context diffs with small sides. *)
From Coq Require Import String Sorted Permutation.
From Verif Require Import Base QtStr Lev Diff Regex Patterns Parser SpecEdit SpecInline SpecPatch SpecRegex SpecParse SpecText SpecUnified SpecNormal SpecContext SpecSmall
  PRegex PRegexLang PLev PHistory PEditLines PParse PUnified PHeaders PFileHeads PUnifiedDoc PFuel PAnyInput PDefined PropsParse PropsText PUnifiedPrint PUnifiedRead PNormal PNormalDoc PContext PContextDoc PMissing.
Local Open Scope Z_scope.

Notation nostars := (Forall (fun l => ~ begins "*** " l)).
Lemma readable_ok h : small_chunk_ok h -> readable h = true -> chunk_ok h /\ small_chunk_text h = chunk_text h.
Proof.
  intros [A B F S AL C] R. unfold readable in R. apply andb_prop in R as [R1 R2]. apply Z.leb_le in R1, R2. split.
  - split; auto.
  - unfold small_chunk_text, chunk_text, any_range. destruct (Z.leb_spec (src_count (ch_segs h)) 1); [lia|]. destruct (Z.leb_spec (dst_count (ch_segs h)) 1); [lia|]. reflexivity.
Qed.
Definition shead2 (h : chunk) : str := lit "*** " ++ any_range (ch_a h) (src_count (ch_segs h)) ++ lit " ****" ++ [NL].
Definition shead3 (h : chunk) : str := lit "--- " ++ any_range (ch_b h) (dst_count (ch_segs h)) ++ lit " ----" ++ [NL].
Lemma small_shape h rest : small_chunk_text h ++ rest =
  head1 h :: shead2 h :: (old_text (ch_segs h) ++ shead3 h :: (new_text (ch_segs h) ++ rest)).
Proof. unfold small_chunk_text. rewrite <- !app_assoc. reflexivity. Qed.
Lemma src_nonneg ss : 0 <= src_count ss /\ 0 <= dst_count ss.
Proof.
  unfold src_count, dst_count, count. split; lia.
Qed.
Lemma any_range_name a n mark : 1 <= a -> 0 <= n -> (mark = " ****"%string \/ mark = " ----"%string) -> name_ok (any_range a n ++ lit mark) /\ exists x y, any_range a n = x :: y /\ is_digit x = true.
Proof.
  intros A N M. assert (D : forall z, 0 <= z -> exists x y, number z = x :: y /\ forallb is_digit (x :: y) = true).
  { intros z Hz. destruct (number_digits z Hz) as [D1 D2]. destruct (number z) as [|x y]; [congruence|]. eauto. }
  assert (DT : forall w, forallb is_digit w = true -> ~ In TAB w /\ ~ In NL w).
  { intros w H. rewrite forallb_forall in H. split; intros I; apply H in I; discriminate. }
  assert (R : exists x y, any_range a n = x :: y /\ is_digit x = true /\ ~ In TAB (x :: y) /\ ~ In NL (x :: y)).
  { unfold any_range. destruct (n <=? 1) eqn:E; [apply Z.leb_le in E|apply Z.leb_gt in E].
    - destruct (D (a + n - 1)) as (x & y & -> & F); [lia|]. exists x, y. destruct (DT _ F) as [F1 F2]. cbn in F. apply andb_prop in F as [F _]. auto.
    - unfold lines_text. destruct (D a) as (x & y & -> & F); [lia|]. destruct (D (a + n - 1)) as (x2 & y2 & -> & F2); [lia|].
      exists x, (y ++ lit "," ++ x2 :: y2). split; [reflexivity|]. destruct (DT _ F) as [T1 T2]. destruct (DT _ F2) as [T3 T4].
      cbn in F. apply andb_prop in F as [F _]. split; [exact F|].
      change (x :: y ++ lit "," ++ x2 :: y2) with ((x :: y) ++ lit "," ++ x2 :: y2).
      split; (intros I; apply in_app_or in I as [I|I]; [auto|apply in_app_or in I as [I|I]; [destruct I as [I|[]]; discriminate|auto]]). }
  destruct R as (x & y & E & DX & T1 & T2). rewrite E. split; [|eauto]. split; [discriminate|].
  split; intros I; apply in_app_or in I as [I|I]; auto; destruct M as [-> | ->]; vm_compute in I; intuition discriminate.
Qed.
Lemma fake_head mark h r : small_chunk_ok h -> (mark = "*** " /\ r = shead2 h \/ mark = "--- " /\ r = shead3 h)%string ->
  exists c, full_match (diff_context_header mark) r = Some c.
Proof.
  intros OK H. destruct (src_nonneg (ch_segs h)) as [N1 N2]. destruct OK as [[A _] [B _] _ _ _ _].
  assert (K : forall m nm, name_ok nm -> exists c, full_match (diff_context_header m) (lit m ++ nm ++ [NL]) = Some c).
  { intros m nm NM. destruct (diff_heading m nm [] NM) as (c & E & _); [repeat split; intros []|]. exists c.
    unfold cheading, heading_text in E. cbn [app] in E. exact E. }
  destruct H as [[-> ->]|[-> ->]]; [unfold shead2|unfold shead3].
  - rewrite (app_assoc (any_range _ _)). apply K. apply any_range_name; auto.
  - rewrite (app_assoc (any_range _ _)). apply K. apply any_range_name; auto.
Qed.
(** One number is no range of a hunk. *)
Lemma one_number mark tail (re : re) z : 0 <= z -> is_digit (hd 0%N tail) = false -> hd 0%N tail <> 44%N -> tail <> [] ->
  full_match (T mark ~~ RGroup 1 digits ~~ T "," ~~ re) (lit mark ++ number z ++ tail) = None.
Proof.
  intros Z D C NE. destruct (full_match _ _) as [c|] eqn:E; [|reflexivity]. exfalso. unfold full_match in E.
  rewrite m_seq in E. unfold T at 1 in E. apply i_text in E as (s & E1 & E). apply app_inv_head in E1. subst s.
  rewrite m_seq, m_group in E. apply i_digits in E as (w & r & E1 & W1 & W2 & E). rewrite m_seq in E. unfold T at 1 in E.
  apply i_text in E as (s & -> & _). destruct (number_digits z Z) as [_ N2]. destruct tail as [|x tail]; [congruence|]. cbn [hd] in *.
  cbn [lit Ascii.N_of_ascii app] in E1. apply digits_sep in E1 as (_ & E1 & _); auto.
Qed.
Lemma small_head2 h : small_chunk_ok h -> src_count (ch_segs h) <= 1 -> full_match context_hunk_header2 (shead2 h) = None.
Proof.
  intros [[A _] _ _ _ _ _] S. destruct (src_nonneg (ch_segs h)) as [N1 N2]. unfold shead2, any_range. apply Z.leb_le in S. rewrite S.
  apply one_number; [lia|reflexivity|discriminate|discriminate].
Qed.
Lemma small_head3 h : small_chunk_ok h -> dst_count (ch_segs h) <= 1 -> full_match context_hunk_header3 (shead3 h) = None.
Proof.
  intros [_ [B _] _ _ _ _] S. destruct (src_nonneg (ch_segs h)) as [N1 N2]. unfold shead3, any_range. apply Z.leb_le in S. rewrite S.
  apply one_number; [lia|reflexivity|discriminate|discriminate].
Qed.
Lemma big_head2 h : small_chunk_ok h -> 2 <= src_count (ch_segs h) -> exists c, full_match context_hunk_header2 (shead2 h) = Some c.
Proof.
  intros [[A _] _ _ _ _ _] S. unfold shead2, any_range. destruct (Z.leb_spec (src_count (ch_segs h)) 1); [lia|]. unfold lines_text.
  destruct (header2_forward (number (ch_a h)) (number (ch_a h + src_count (ch_segs h) - 1))) as (c & M & _); [apply number_ok; lia|apply number_ok; lia|]. eauto.
Qed.
Lemma small_head1 h : small_chunk_ok h -> exists c, full_match context_hunk_header1 (head1 h) = Some c.
Proof.
  intros [_ _ F _ _ _]. destruct (header1_forward (ch_function h) F) as (c & M & _). exists c. unfold head1. destruct (ch_function h); exact M.
Qed.
Lemma sides_not_header h : small_chunk_ok h -> nostars (new_text (ch_segs h)) /\
  (shows_old h = true -> exists l ls, old_text (ch_segs h) = l :: ls /\ hunk_line_like l) /\
  (shows_old h = false -> old_text (ch_segs h) = [] /\ exists l ls, new_text (ch_segs h) = l :: ls /\ hunk_line_like l).
Proof.
  intros [_ _ _ S _ C]. destruct (sides_like _ S) as [L1 L2]. destruct (text_shown _ S) as [T1 T2]. split; [|split].
  - eapply Forall_impl; [|exact L2]. exact like_not_star.
  - intros H. specialize (T1 H). destruct L1 as [|l ls HL L1]; [congruence|]. eauto.
  - intros H. split; [unfold old_text; unfold shows_old in H; now rewrite H|].
    destruct (shown_sides _ C S) as [ON _]. unfold shows_old in H. rewrite H in ON. specialize (T2 ON). destruct L2 as [|l ls HL L2]; [congruence|]. eauto.
Qed.
Lemma line_like_bad l ls : hunk_line_like l -> bad_next_header (diff_context_header "*** ") (l :: ls) = true.
Proof.
  intros (c & t & -> & I & N). change ((c :: SP :: t ++ [NL]) :: ls) with ([c :: SP :: (t ++ [NL])] ++ ls). apply (left_bad false).
  split; [exists c, (t ++ [NL]), []; auto|]. constructor; [now apply cut_not_star|constructor].
Qed.
Lemma line_like_no_hunk l ls : hunk_line_like l -> context_hunk_header_at (l :: ls) = (None, l :: ls).
Proof.
  intros (c & t & -> & I & N). apply no_chunk_at. intros l' x E. injection E as <- _. intros [y Y]. injection Y as -> _. vm_compute in I. intuition discriminate.
Qed.
Lemma line_like_no_second l : hunk_line_like l -> full_match (diff_context_header "--- ") l = None.
Proof. intros (c & t & -> & _). apply line_no. intros [x X]. discriminate. Qed.
Notation cfiles := (files (context_head_of DiffDiff) (hunk_fuel context_hunks) (context_header1_of DiffDiff)).
Lemma head_of ls : context_head_of DiffDiff ls = context_diff_header (diff_context_header "*** ") (diff_context_header "--- ") ls.
Proof. reflexivity. Qed.
(** A line that looks like the header of a file, at the old range of a hunk. *)
Lemma at_range h rest : small_chunk_ok h ->
  if shows_old h then exists r, context_head_of DiffDiff (shead2 h :: old_text (ch_segs h) ++ shead3 h :: rest) = Ok (None, r)
  else exists m, context_head_of DiffDiff (shead2 h :: old_text (ch_segs h) ++ shead3 h :: rest) = Ok (Some m, rest) /\ dm_diffs m = [].
Proof.
  intros OK. destruct (sides_not_header h OK) as (_ & S1 & S2). rewrite !head_of.
  destruct (fake_head "*** " h (shead2 h) OK (or_introl (conj eq_refl eq_refl))) as (c1 & E1).
  destruct (fake_head "--- " h (shead3 h) OK (or_intror (conj eq_refl eq_refl))) as (c2 & E2).
  destruct (shows_old h) eqn:SO.
  - destruct (S1 eq_refl) as (l & ls & -> & LL). cbn [app context_diff_header]. rewrite E1, line_like_no_second by assumption. eauto.
  - destruct (S2 eq_refl) as (-> & _). cbn [app context_diff_header]. rewrite E1, E2. eexists. split; [reflexivity|].
    cbn. unfold new_model, split_destination, split_source. cbn. repeat match goal with |- context [match ?x with _ => _ end] => destruct x end; reflexivity.
Qed.
(** From a lost hunk on, until the next file. *)
Lemma out_of_sync hs : forall fuel lo tail ms, nostars lo -> Forall small_chunk_ok hs -> (length hs < fuel)%nat ->
  if existsb shows_old hs then exists rest, cfiles fuel (lo ++ concat (map small_chunk_text hs) ++ tail) ms true = Ok (ms, true, rest)
  else exists lo', nostars lo' /\ cfiles fuel (lo ++ concat (map small_chunk_text hs) ++ tail) ms true = cfiles (fuel - length hs) (lo' ++ tail) ms true.
Proof.
  induction hs as [|h hs IH]; intros fuel lo tail ms LO F L.
  - cbn [existsb map concat app length]. exists lo. rewrite Nat.sub_0_r. auto.
  - inversion_clear F as [|? ? OK F']. cbn [length] in L. destruct fuel as [|fuel]; [lia|]. cbn [existsb map concat]. rewrite <- app_assoc, small_shape.
    destruct (sides_not_header h OK) as (SN & _ & S2). pose proof (at_range h (new_text (ch_segs h) ++ concat (map small_chunk_text hs) ++ tail) OK) as AR.
    assert (HD : forall x, context_head_of DiffDiff (lo ++ head1 h :: shead2 h :: x) = context_head_of DiffDiff (shead2 h :: x)).
    { intros x. rewrite (skip_left false lo) by assumption. change (head1 h :: shead2 h :: x) with ([head1 h] ++ shead2 h :: x).
      apply (skip_left false). constructor; [|constructor]. intros [y Y]. unfold head1 in Y. destruct (ch_function h); discriminate. }
    destruct (shows_old h) eqn:SO; cbn [orb].
    + destruct AR as (r & AR). cbn [files]. rewrite HD, AR. cbn [bind]. eauto.
    + destruct AR as (m & AR & DM). destruct (S2 eq_refl) as (_ & l & ls & EN & LL).
      assert (E : cfiles (S fuel) (lo ++ head1 h :: shead2 h :: old_text (ch_segs h) ++ shead3 h :: new_text (ch_segs h) ++ concat (map small_chunk_text hs) ++ tail) ms true =
        cfiles fuel (new_text (ch_segs h) ++ concat (map small_chunk_text hs) ++ tail) ms true).
      { cbn [files]. rewrite HD, AR. cbn [bind]. rewrite EN. cbn [app]. unfold hunk_fuel at 1. cbn [length context_hunks].
        rewrite line_like_no_hunk by assumption. cbn [bind orb]. unfold append_model at 1. rewrite DM. reflexivity. }
      rewrite E. exact (IH fuel (new_text (ch_segs h)) tail ms SN F' ltac:(lia)).
Qed.
(** * One file *)
Definition dummy_chunk : chunk := mk_ch 1 1 [] [Chg [[]; []] [[]; []]].
Lemma dummy_ok : chunk_ok dummy_chunk.
Proof.
  assert (LT : line_text []) by (split; [intros []|reflexivity]).
  assert (T : Forall line_text [[]; []]) by (constructor; [exact LT|constructor; [exact LT|constructor]]).
  split; [vm_compute; intuition discriminate|vm_compute; intuition discriminate|vm_compute; intuition discriminate|intros []| | |].
  - constructor; [|constructor]. split; [exact T|]. split; [exact T|]. intros [E _]. discriminate.
  - cbn. repeat constructor.
  - cbn. now constructor.
Qed.
Definition rechunk (p : cpatch) (us : list chunk) : cpatch :=
  mk_cp (cp_before p) (cp_old p) (cp_new p) (cp_stamp1 p) (cp_stamp2 p) (cp_rev1 p) (cp_rev2 p) us.
Lemma rechunk_ok p : small_patch_ok p -> cpatch_ok false (rechunk p [dummy_chunk]).
Proof.
  intros [B O N S1 S2 [R1 R2] C SO]. split; cbn [rechunk cp_before cp_old cp_new cp_stamp1 cp_stamp2 cp_rev1 cp_rev2 cp_chunks]; auto; try (now rewrite ?R1, ?R2); try discriminate.
  constructor; [exact dummy_ok|constructor].
Qed.
Lemma read_lost us : us = hunks_read us ++ hunks_lost us.
Proof. induction us as [|h us IH]; [reflexivity|]. cbn. destruct (readable h); [|reflexivity]. cbn. now rewrite <- IH. Qed.
Lemma hunks_read_ok us : Forall small_chunk_ok us -> Forall chunk_ok (hunks_read us) /\ concat (map small_chunk_text (hunks_read us)) = concat (map chunk_text (hunks_read us)).
Proof.
  induction 1 as [|h us OK F [IH1 IH2]]; [split; [constructor|reflexivity]|]. cbn. destruct (readable h) eqn:R; [|split; [constructor|reflexivity]].
  destruct (readable_ok h OK R) as [A B]. cbn [map concat]. rewrite B, IH2. auto.
Qed.
Lemma lost_first us h hs : hunks_lost us = h :: hs -> readable h = false.
Proof. induction us as [|u us IH]; [discriminate|]. cbn. destruct (readable u) eqn:R; [auto|]. intros E. injection E as -> _. exact R. Qed.
(** The readable hunks of a file are read; then come the lost ones, or the next file. *)
Lemma read_then us : forall fuel rest m hs rest', Forall chunk_ok us -> no_body rest ->
  (S (length us) < fuel)%nat -> contents m hs -> (forall fuel' m1, context_hunks (S (S fuel')) rest m1 = Ok (m1, rest')) ->
  exists m2 ps, context_hunks fuel (concat (map chunk_text us) ++ rest) m = Ok (m2, rest') /\
    contents m2 (hs ++ ps) /\ Forall2 chunk_is us ps /\ (forall st, with_contents m2 [] [] st = with_contents m [] [] st).
Proof.
  induction us as [|h us IH]; intros fuel rest m hs rest' OK NB L HC HR; (destruct fuel as [|fuel]; [cbn in L; lia|]).
  - cbn [map concat app]. destruct fuel as [|fuel]; [cbn in L; lia|]. rewrite HR. exists m, []. rewrite app_nil_r.
    split; [reflexivity|]. split; [exact HC|]. split; [constructor|reflexivity].
  - inversion_clear OK as [|? ? OKh OK']. cbn [length] in L. cbn [context_hunks].
    destruct (chunk_forward h (concat (map chunk_text us) ++ rest) m hs OKh) as (c1 & c2 & m1 & p & M & B & C1 & HI & W1).
    { destruct us as [|u us]; [exact NB|]. intros l ls E. cbn in E. injection E as <- _. intros (x & y & X & _). discriminate. }
    { exact HC. }
    destruct (IH fuel rest m1 (hs ++ [p]) rest' OK' NB ltac:(lia) C1 HR) as (m2 & ps & E & C2 & F & W2).
    exists m2, (p :: ps). split.
    + cbn [map concat]. rewrite <- app_assoc. rewrite M, B. cbn [bind]. exact E.
    + rewrite <- app_assoc in C2. split; [exact C2|]. split; [constructor; assumption|]. intros st. rewrite W2. apply W1.
Qed.
(** At the first hunk that is lost. *)
Lemma at_lost h rest : small_chunk_ok h -> readable h = false ->
  no_body (small_chunk_text h ++ rest) /\
  exists rest', (forall fuel m, context_hunks (S (S fuel)) (small_chunk_text h ++ rest) m = Ok (m, rest')) /\
    if src_count (ch_segs h) <=? 1 then rest' = shead2 h :: old_text (ch_segs h) ++ shead3 h :: (new_text (ch_segs h) ++ rest)
    else rest' = shead3 h :: (new_text (ch_segs h) ++ rest).
Proof.
  intros OK NR. split.
  { intros l ls E. rewrite small_shape in E. assert (EQ : head1 h = l) by congruence. subst l. intros (x & y & X & _). unfold head1 in X. discriminate. }
  destruct (small_head1 h OK) as (c1 & M1). destruct (Z.leb_spec (src_count (ch_segs h)) 1) as [S|S].
  - eexists. split; [|reflexivity]. intros fuel m. rewrite small_shape. cbn [context_hunks context_hunk_header_at]. rewrite M1, small_head2 by assumption. reflexivity.
  - assert (D : dst_count (ch_segs h) <= 1).
    { unfold readable in NR. apply andb_false_iff in NR as [NR|NR]; apply Z.leb_gt in NR; lia. }
    destruct (big_head2 h OK) as (c2 & M2); [lia|]. destruct (sides_not_header h OK) as (_ & _ & _). pose proof OK as [_ _ _ SS _ _]. destruct (sides_like _ SS) as [L1 _].
    eexists. split; [|reflexivity]. intros fuel m. rewrite small_shape. cbn [context_hunks context_hunk_header_at]. rewrite M1, M2.
    unfold context_hunk_body at 1. rewrite take_lines_forward; [|exact L1|].
    + rewrite small_head3 by assumption. cbn [bind context_hunk_header_at].
      destruct (full_match context_hunk_header1 (shead3 h)) eqn:E; [|reflexivity]. apply header1_begins in E as [x X]. discriminate.
    + intros l ls E. assert (EQ : shead3 h = l) by congruence. subst l. intros (x & y & X & _). discriminate.
Qed.
Lemma shead3_bad h ls : bad_next_header (diff_context_header "*** ") (shead3 h :: ls) = true.
Proof.
  cbn [bad_next_header]. unfold has_match, diff_context_header. rewrite line_no by (intros [x X]; discriminate). reflexivity.
Qed.
Definition weight (ps : list cpatch) : nat := fold_right (fun p n => S (length (cp_chunks p) + n)) 0%nat ps.
Lemma sfiles_forward ps : forall fuel lo after ms bad, nostars lo ->
  Forall small_patch_ok ps -> Forall cbetween after -> Forall may_resume (tl (map cp_before ps ++ [after])) ->
  (weight ps < fuel)%nat ->
  exists mss rest, cfiles fuel (lo ++ concat (map small_patch_text ps) ++ after) ms bad = Ok (ms ++ concat mss, (bad || complaint ps)%bool, rest) /\
    Forall2 small_patch_is (files_read ps) mss.
Proof.
  induction ps as [|p ps IH]; intros fuel lo after ms bad LO OK BA R L; (destruct fuel as [|fuel]; [cbn in L; lia|]).
  - exists [], []. cbn [concat map app files_read]. unfold complaint. cbn [files_read existsb]. rewrite app_nil_r, orb_false_r. split; [|constructor].
    cbn [files]. rewrite (skip_left false lo) by assumption.
    enough (context_head_of (dialect false) after = Ok (None, [])) as -> by reflexivity. cbn [dialect]. rewrite head_of. clear -BA.
    induction BA as [|l ls [_ H _ _] BA IH]; [reflexivity|]. cbn [context_diff_header]. unfold diff_context_header. rewrite line_no by assumption. exact IH.
  - inversion_clear OK as [|? ? OKp OK']. cbn [map app tl] in R. cbn [weight fold_right] in L. fold (weight ps) in L.
    pose proof (rechunk_ok p OKp) as RO. pose proof OKp as [_ _ _ _ _ [R1 R2] CH CN].
    set (tail := concat (map small_patch_text ps) ++ after).
    assert (TO : ctail_ok false tail).
    { unfold tail. destruct ps as [|p2 ps].
      - cbn in *. inversion_clear R. intros l ls E. left. eapply H; eauto.
      - cbn [map] in OK', R |- *. inversion_clear OK' as [|? ? OKp2 _]. cbn [app] in R. inversion_clear R as [|? ? RR _].
        cbn [concat]. unfold small_patch_text at 1. intros l ls E. destruct (cp_before p2) as [|b bs].
        + right. cbn [app] in E. injection E as <- _. exists (rechunk p2 [dummy_chunk]). split; [now apply rechunk_ok|reflexivity].
        + left. cbn [app] in E. injection E as <- _. eapply RR. reflexivity. }
    destruct (ctail_ends _ _ TO) as (NE & NH & BN).
    assert (RT : Forall may_resume (tl (map cp_before ps ++ [after]))).
    { destruct ps; cbn in *; [constructor|]. inversion_clear R. assumption. }
    set (us := cp_chunks p) in *.
    destruct (chead_forward false (rechunk p [dummy_chunk]) (concat (map small_chunk_text us) ++ tail) RO) as (m0 & E0 & C0 & NM0).
    cbn [rechunk cp_before cp_old cp_new cp_stamp1 cp_stamp2 cp_rev1 cp_rev2] in E0, NM0. unfold read_stamp1, read_stamp2 in NM0. cbn [rechunk cp_stamp1 cp_stamp2] in NM0. cbn [dialect] in E0.
    assert (SH : lo ++ concat (map small_patch_text (p :: ps)) ++ after = lo ++ cp_before p ++
       [cheading "*** " (cp_old p) (cp_stamp1 p) (cp_rev1 p); cheading "--- " (cp_new p) (cp_stamp2 p) (cp_rev2 p)] ++ concat (map small_chunk_text us) ++ tail).
    { cbn [map concat]. unfold small_patch_text at 1. fold us. unfold tail. rewrite <- !app_assoc. reflexivity. }
    destruct (hunks_read_ok us CH) as [RD ER].
    assert (CL : Forall small_chunk_ok (hunks_lost us)) by (rewrite (read_lost us) in CH; apply Forall_app in CH; tauto).
    assert (EU : concat (map small_chunk_text us) ++ tail = concat (map chunk_text (hunks_read us)) ++ concat (map small_chunk_text (hunks_lost us)) ++ tail).
    { rewrite (read_lost us) at 1. rewrite map_app, concat_app, ER, <- app_assoc. reflexivity. }
    assert (LU : (length us = length (hunks_read us) + length (hunks_lost us))%nat) by (rewrite (read_lost us) at 1; apply app_length).
    (* the hunks of the file *)
    set (mine := fun m : dmodel => match hunks_read us with [] => [] | _ => [m] end).
    assert (HB : forall rest rest', no_body rest -> hunks_read us <> [] \/ rest <> [] -> (forall fuel' m1, context_hunks (S (S fuel')) rest m1 = Ok (m1, rest')) ->
       exists m, hunk_fuel context_hunks (concat (map chunk_text (hunks_read us)) ++ rest) m0 = Ok (m, rest') /\ append_model ms m = ms ++ mine m /\ small_patch_is p (mine m)).
    { intros rest rest' NB NN HR.
      destruct (read_then (hunks_read us) (S (length (concat (map chunk_text (hunks_read us)) ++ rest))) rest m0 [] rest' RD NB) as (m & hs & EH & C & F & W); [|exact C0|exact HR|].
      { rewrite app_length. destruct NN as [NN|NN].
        - destruct (hunks_read us) as [|u0 us0]; [congruence|]. cbn [map concat length]. rewrite app_length. pose proof (chunks_count us0). cbn [chunk_text app length]. unfold str, chr in *. lia.
        - pose proof (chunks_count (hunks_read us)). destruct rest as [|r0 rs]; [congruence|]. cbn [length]. unfold str, chr in *. lia. }
      exists m. split; [exact EH|].
      assert (NM : named m (unescape_path (cp_old p)) (unescape_path (cp_new p)) (cp_stamp1 p) (cp_stamp2 p)) by (eapply named_contents; eauto).
      unfold mine, small_patch_is. fold us. destruct (hunks_read us) as [|u0 us0] eqn:EHR.
      - assert (hs = []) by (inversion F; reflexivity). subst hs. split; [|reflexivity]. destruct C as [[H1 H2 H3 H4 H5 H6] H7]. unfold append_model. cbn in H5.
        rewrite H5. cbn. now rewrite app_nil_r.
      - split; [|exists m, hs; auto]. unfold append_model.
        assert (LI : (0 < length (dm_diffs m))%nat).
        { apply (cpatch_listed false (rechunk p (u0 :: us0)) m).
          - destruct RO as [B O N S1 S2 D _ _]. split; auto. discriminate.
          - exists hs. split; [exact C|exact F]. }
        apply Nat.ltb_lt in LI. now rewrite LI. }
    rewrite SH. cbn [files]. rewrite (skip_left false lo) by assumption. cbn [dialect]. unfold str, chr in *. rewrite E0. cbn [bind]. rewrite EU.
    destruct (hunks_lost us) as [|h hs] eqn:EL.
    { (* every hunk is read *)
      cbn [map concat app] in *.
      assert (NN : hunks_read us <> []).
      { intros E. apply CN. rewrite (read_lost us), E, EL. reflexivity. }
      destruct (HB tail tail NE (or_introl NN)) as (m & EH & AM & PM).
      { intros fuel' m1. cbn [context_hunks]. rewrite no_chunk_at by exact NH. reflexivity. }
      rewrite EH. cbn [bind]. cbn [dialect] in BN. rewrite AM, BN, orb_false_r.
      destruct (IH fuel [] after (ms ++ mine m) bad (Forall_nil _) OK' BA RT ltac:(lia)) as (mss & rest & E & FR).
      cbn [app] in E. fold tail in E. unfold str, chr in *. rewrite E.
      assert (ER' : ends_reading (cp_chunks p) = false) by (unfold ends_reading; fold us; now rewrite EL).
      exists (mine m :: mss), rest. cbn [files_read concat]. rewrite ER'. split; [|constructor; assumption].
      rewrite app_assoc. unfold complaint at 2. cbn [files_read existsb]. rewrite ER'. unfold complains at 1. fold us. rewrite EL. reflexivity. }
    inversion_clear CL as [|? ? OKh OKs].
    assert (NR : readable h = false) by (eapply lost_first; exact EL).
    (* after a lost hunk *)
    assert (LS : forall f lo2 m, nostars lo2 -> (length hs + weight ps < f)%nat -> small_patch_is p (mine m) -> ends_silently h = false ->
      exists mss rest, cfiles f (lo2 ++ concat (map small_chunk_text hs) ++ tail) (ms ++ mine m) true = Ok (ms ++ concat mss, (bad || complaint (p :: ps))%bool, rest) /\
        Forall2 small_patch_is (files_read (p :: ps)) mss).
    { intros f lo2 m LO2 LF PM ES. pose proof (out_of_sync hs f lo2 tail (ms ++ mine m) LO2 OKs ltac:(lia)) as SY.
      assert (CT : complaint (p :: ps) = true).
      { unfold complaint. cbn [files_read existsb]. unfold complains at 1. fold us. now rewrite EL, ES. }
      rewrite CT, orb_true_r.
      assert (EE : ends_reading (cp_chunks p) = existsb shows_old hs) by (unfold ends_reading; fold us; now rewrite EL, ES).
      cbn [files_read]. rewrite EE. destruct (existsb shows_old hs).
      - destruct SY as (rest & SY). exists [mine m], rest. rewrite SY. cbn [concat]. rewrite app_nil_r. split; [reflexivity|]. repeat constructor. exact PM.
      - destruct SY as (lo' & LO' & SY). destruct (IH (f - length hs)%nat lo' after (ms ++ mine m) true LO' OK' BA RT ltac:(lia)) as (mss & rest & E & FR).
        exists (mine m :: mss), rest. rewrite SY. unfold tail. unfold str, chr in *. rewrite E. cbn [concat orb]. rewrite app_assoc. split; [reflexivity|]. constructor; assumption. }
    destruct (at_lost h (concat (map small_chunk_text hs) ++ tail) OKh NR) as (NB & rest' & HR & SHR).
    destruct (HB _ rest' NB) as (m & EH & AM & PM); [right; rewrite small_shape; discriminate|exact HR|].
    cbn [map concat]. rewrite <- (app_assoc (small_chunk_text h)). unfold str, chr in *. rewrite EH. cbn [bind]. rewrite AM.
    destruct (sides_not_header h OKh) as (SN & _ & S2). cbn [length] in LU.
    destruct (Z.leb_spec (src_count (ch_segs h)) 1) as [SC|SC]; subst rest'.
    + assert (BF : bad_next_header (context_header1_of DiffDiff) (shead2 h :: old_text (ch_segs h) ++ shead3 h :: (new_text (ch_segs h) ++ concat (map small_chunk_text hs) ++ tail)) = false).
      { destruct (fake_head "*** " h (shead2 h) OKh (or_introl (conj eq_refl eq_refl))) as (c1 & E1).
        cbn [bad_next_header context_header1_of]. unfold has_match. rewrite E1. reflexivity. }
      unfold str, chr in *. rewrite BF, orb_false_r.
      destruct fuel as [|fuel]; [lia|]. pose proof (at_range h (new_text (ch_segs h) ++ concat (map small_chunk_text hs) ++ tail) OKh) as AR.
      assert (ES : ends_silently h = shows_old h) by (unfold ends_silently; apply Z.leb_le in SC; now rewrite SC).
      destruct (shows_old h) eqn:SO.
      * destruct AR as (r & AR). cbn [files]. unfold str, chr in *. rewrite AR. cbn [bind]. exists [mine m], r.
        assert (EE : ends_reading (cp_chunks p) = true) by (unfold ends_reading; fold us; now rewrite EL, ES).
        unfold complaint. cbn [files_read]. rewrite EE. cbn [existsb concat]. unfold complains. fold us. rewrite EL, ES. cbn [negb orb]. rewrite orb_false_r, app_nil_r.
        split; [reflexivity|]. repeat constructor. exact PM.
      * destruct AR as (m' & AR & DM). destruct (S2 eq_refl) as (_ & l & ls & EN & LL).
        destruct (LS fuel (new_text (ch_segs h)) m SN ltac:(lia) PM ES) as (mss & rest & E & FR). exists mss, rest. split; [|exact FR].
        rewrite <- E. cbn [files]. unfold str, chr in *. rewrite AR. cbn [bind]. rewrite EN. cbn [app]. unfold hunk_fuel at 1. cbn [length context_hunks].
        rewrite line_like_no_hunk by assumption. cbn [bind]. rewrite (line_like_bad _ _ LL), orb_true_r. unfold append_model at 1. rewrite DM. reflexivity.
    + assert (ES : ends_silently h = false) by (unfold ends_silently; destruct (Z.leb_spec (src_count (ch_segs h)) 1); [lia|reflexivity]).
      destruct (LS fuel (shead3 h :: new_text (ch_segs h)) m) as (mss & rest & E & FR); [|lia|exact PM|exact ES|].
      { constructor; [|exact SN]. intros [x X]. discriminate. }
      exists mss, rest. split; [|exact FR]. rewrite <- E. change (context_header1_of DiffDiff) with (diff_context_header "*** ") at 2. rewrite shead3_bad, orb_true_r. reflexivity.
Qed.
