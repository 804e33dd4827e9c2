(** The readings of SpecLines.v are determined by the lines. *)
From Coq Require Import String Permutation.
From Verif Require Import Base QtStr Lev Diff Regex Patterns Parser SpecEdit SpecInline SpecPatch SpecParse SpecNormal SpecLines
  PRegex PStar PLev PHistory PEditLines PParse PUnified PHeaders PFileHeads PUnifiedDoc PFuel PAnyInput PNormal PNormalDoc PLines PLineHeads PLineChunks.
Local Open Scope Z_scope.

(** * Commands *)
Lemma shows_iff d ty o n : shows d ty o n <-> difference_shows d = (ty, o, n).
Proof. unfold shows, difference_shows. split; [intros (-> & -> & ->); reflexivity|intros E; injection E; auto]. Qed.
Lemma take_run mark ts rest : Forall one_line ts -> no_more mark rest ->
  take_matching (T mark ~~ RGroup 1 (star any) ~~ nl) (run_of mark ts ++ rest) = (ts, rest).
Proof.
  intros F NR. induction F as [|t ts N F IH]; cbn [run_of map app take_matching].
  - destruct rest as [|l ls]; [reflexivity|]. cbn [take_matching]. destruct (full_match _ l) as [c|] eqn:E; [|reflexivity].
    apply line_inv in E as (t & O & -> & _). exfalso. exact (NR t ls O eq_refl).
  - destruct (line_forward mark t N) as (c & -> & ->). unfold run_of in IH. rewrite IH. reflexivity.
Qed.
Lemma run_same mark ts rest ts' rest' : Forall one_line ts -> Forall one_line ts' -> no_more mark rest -> no_more mark rest' ->
  run_of mark ts ++ rest = run_of mark ts' ++ rest' -> ts = ts' /\ rest = rest'.
Proof.
  intros A B C D E. pose proof (take_run mark ts rest A C) as T1. rewrite E, (take_run mark ts' rest' B D) in T1. injection T1; auto.
Qed.
Lemma divider_no_more rest : no_more "< " ((lit "---" ++ [NL]) :: rest).
Proof. intros t r _ X. discriminate X. Qed.
Lemma body_same ty body old new rest body' old' new' rest' : command_body ty body old new rest -> command_body ty body' old' new' rest' ->
  body ++ rest = body' ++ rest' -> old = old' /\ new = new' /\ rest = rest'.
Proof.
  assert (K : forall old new rest old' rest', Forall one_line old -> Forall one_line old' -> no_more "< " rest' ->
    (forall r, rest' <> (lit "---" ++ [NL]) :: r) ->
    (run_of "< " old ++ [lit "---" ++ [NL]] ++ run_of "> " new) ++ rest = run_of "< " old' ++ rest' -> False).
  { intros o1 n1 r1 o2 r2 A B C D E. rewrite <- app_assoc in E. apply run_same in E as [_ E]; auto; [|apply divider_no_more]. symmetry in E. now apply D in E. }
  intros H H' E. destruct H as [nw rs F N|ol rs F N|ol nw rs F1 F2 N|ol rs F N ND]; inversion H' as [nw' rs' F' N'|ol' rs' F' N'|ol' nw' rs' F1' F2' N'|ol' rs' F' N' ND']; subst.
  - apply run_same in E as [-> ->]; auto.
  - apply run_same in E as [-> ->]; auto.
  - rewrite <- !app_assoc in E. apply run_same in E as [-> E]; auto; try apply divider_no_more.
    apply app_inv_head in E. apply run_same in E as [-> ->]; auto.
  - exfalso. eapply K; [| | | |exact E]; assumption.
  - exfalso. symmetry in E. eapply K; [| | | |exact E]; assumption.
  - apply run_same in E as [-> ->]; auto.
Qed.
Lemma command_line_same l ty a b ty' a' b' : command_line l ty a b -> command_line l ty' a' b' -> ty = ty' /\ a = a' /\ b = b'.
Proof. intros H H'. apply command_at with (ls := []) in H. apply command_at with (ls := []) in H'. rewrite H in H'. injection H'; auto. Qed.
Lemma commands_same ls hs rest : commands ls hs rest -> forall hs' rest', commands ls hs' rest' ->
  map hunk_shows hs = map hunk_shows hs' /\ rest = rest'.
Proof.
  induction 1 as [rest N|l ty a b body old new h d ls hs rest CL CB A1 A2 A3 A4 CT SH PR CM IH]; intros hs' rest' H'.
  - inversion H' as [r N'|l ty a b body old new h d ls hs rest0 CL]; subst; [auto|]. exfalso. eapply N; eauto.
  - inversion H' as [r N'|l' ty' a' b' body' old' new' h' d' ls' hs'' rest0 CL' CB' B1 B2 B3 B4 CT' SH' PR' CM' E]; subst.
    + exfalso. eapply N'; eauto.
    + destruct (command_line_same _ _ _ _ _ _ _ CL CL') as (<- & E1 & E2).
      match goal with E : body' ++ ls' = body ++ ls |- _ => symmetry in E; apply (body_same _ _ _ _ _ _ _ _ _ CB CB') in E as (<- & <- & <-) end.
      apply IH in CM' as [E3 <-]. split; [|reflexivity]. cbn [map]. rewrite E3. f_equal. unfold hunk_shows. cbn [fst snd map].
      apply shows_iff in SH. apply shows_iff in SH'. rewrite SH, SH', E1, E2, A3, B3. reflexivity.
Qed.

(** * Marked lines *)
Lemma cline_text_inj c c' : cline_text c = cline_text c' -> c = c'.
Proof.
  unfold cline_text. intros E. destruct c as [x t], c' as [x' t']. cbn [fst snd] in E. injection E as -> E. apply app_inv_tail in E. now subst.
Qed.
Lemma clines_take cs rest : Forall cline_ok cs -> no_cline rest -> take_context_lines (map cline_text cs ++ rest) = (map cline_text cs, rest).
Proof.
  intros F N. induction F as [|c cs O F IH]; cbn [map app take_context_lines].
  - destruct rest as [|l ls]; [reflexivity|]. cbn [take_context_lines]. destruct (has_match context_line l) eqn:E; [|reflexivity].
    apply cline_has in E as (c & O & ->). exfalso. exact (N c ls O eq_refl).
  - rewrite (proj2 (cline_has (cline_text c))) by eauto. rewrite IH. reflexivity.
Qed.
Lemma clines_same cs rest cs' rest' : Forall cline_ok cs -> Forall cline_ok cs' -> no_cline rest -> no_cline rest' ->
  map cline_text cs ++ rest = map cline_text cs' ++ rest' -> cs = cs' /\ rest = rest'.
Proof.
  intros A B C D E. pose proof (clines_take cs rest A C) as T1. rewrite E, (clines_take cs' rest' B D) in T1. injection T1 as E1 ->. split; [|reflexivity].
  clear -E1. revert cs' E1. induction cs as [|c cs IH]; intros [|c' cs'] E1; try discriminate; [reflexivity|]. cbn [map] in E1. pose proof (f_equal (hd []) E1) as E2. apply (f_equal (@tl str)) in E1. cbn [hd tl] in E1, E2.
  f_equal; [symmetry; apply cline_text_inj; exact E2|apply IH; exact E1].
Qed.
Lemma marked_same x ts cs ts' cs' : next_mark cs <> Some x -> next_mark cs' <> Some x ->
  all_marked x ts ++ cs = all_marked x ts' ++ cs' -> ts = ts' /\ cs = cs'.
Proof.
  revert ts'. induction ts as [|t ts IH]; intros [|t' ts'] A B E; cbn [all_marked map app] in E.
  - auto.
  - rewrite E in A. exfalso. apply A. reflexivity.
  - rewrite <- E in B. exfalso. apply B. reflexivity.
  - injection E as -> E. apply IH in E as [-> ->]; auto.
Qed.

(** * The two sides of a hunk *)
Inductive kind := KEnd | KRemoved | KAdded | KCommon | KChanged | KWrong.
Definition mark_is (x : chr) (cs : list cline) : bool := match next_mark cs with Some y => N.eqb y x | None => false end.
Definition overb (cs : list cline) : bool := match cs with [] => true | _ => mark_is SP cs end.
Definition kind_of (old new : list cline) : kind :=
  if mark_is MINUS old then KRemoved else if mark_is PLUS new then KAdded
  else if (overb old && overb new)%bool then (match old, new with [], [] => KEnd | _, _ => KCommon end)
  else if (mark_is BANG old || mark_is BANG new)%bool then KChanged else KWrong.
Lemma mark_is_iff x cs : mark_is x cs = true <-> next_mark cs = Some x.
Proof. unfold mark_is. destruct (next_mark cs) as [y|]; [|split; discriminate]. rewrite N.eqb_eq. split; congruence. Qed.
Lemma mark_is_not x cs : mark_is x cs = false <-> next_mark cs <> Some x.
Proof. rewrite <- mark_is_iff. destruct (mark_is x cs); split; congruence. Qed.
Lemma overb_iff cs : overb cs = true <-> over_or_common cs.
Proof. unfold over_or_common. destruct cs as [|c cs]; [cbn; tauto|]. unfold overb. rewrite mark_is_iff. split; [auto|]. intros [X|X]; [discriminate|exact X]. Qed.
Lemma mark_marked x y ts cs : ts <> [] -> mark_is x (all_marked y ts ++ cs) = N.eqb y x.
Proof. destruct ts; [contradiction|]. reflexivity. Qed.
Definition step (old new : list cline) (ds : list difference) : Prop :=
  match kind_of old new with
  | KEnd | KWrong => ds = []
  | KRemoved => exists ts old' d ds', ds = d :: ds' /\ old = all_marked MINUS ts ++ old' /\ ts <> [] /\ next_mark old' <> Some MINUS /\ shows d Delete ts [] /\ paired old' new ds'
  | KAdded => exists ts new' d ds', ds = d :: ds' /\ new = all_marked PLUS ts ++ new' /\ ts <> [] /\ next_mark new' <> Some PLUS /\ shows d Insert [] ts /\ paired old new' ds'
  | KCommon => exists os ns old' new' d ds', ds = d :: ds' /\ old = all_marked SP os ++ old' /\ new = all_marked SP ns ++ new' /\ (os <> [] \/ ns <> []) /\
      (length os = length ns \/ ((length os < length ns)%nat /\ old' = []) \/ ((length ns < length os)%nat /\ new' = [])) /\
      ~ (over_or_common old' /\ over_or_common new' /\ (old' <> [] \/ new' <> [])) /\
      shows d Unchanged (ns ++ skipn (length ns) os) (ns ++ skipn (length ns) os) /\ paired old' new' ds'
  | KChanged => exists os ns old' new' d ds', ds = d :: ds' /\ old = all_marked BANG os ++ old' /\ new = all_marked BANG ns ++ new' /\ (os <> [] \/ ns <> []) /\
      next_mark old' <> Some BANG /\ next_mark new' <> Some BANG /\ shows d Change os ns /\ paired old' new' ds'
  end.
Lemma overb_marked x ts cs : ts <> [] -> overb (all_marked x ts ++ cs) = N.eqb x SP.
Proof. destruct ts; [contradiction|]. reflexivity. Qed.
Lemma overb_not cs x : next_mark cs = Some x -> x <> SP -> overb cs = false.
Proof. destruct cs as [|c cs]; [discriminate|]. unfold overb, mark_is. intros -> N. now apply N.eqb_neq. Qed.
Lemma paired_step old new ds : paired old new ds -> step old new ds.
Proof.
  intros H. unfold step. destruct H as [|ts old new d ds NE NM SH PR|ts old new d ds NE N1 N2 SH PR|os ns old new d ds NE LE NO SH PR|os ns old new d ds NE N1 N2 N3 N4 SH PR|old new N1 N2 N3 N4 W].
  - reflexivity.
  - unfold kind_of. rewrite mark_marked by exact NE. cbn. eauto 12.
  - unfold kind_of. rewrite (proj2 (mark_is_not MINUS old) N1), mark_marked by exact NE. cbn. eauto 12.
  - assert (K : kind_of (all_marked SP os ++ old) (all_marked SP ns ++ new) = KCommon).
    { unfold kind_of.
      assert (A : mark_is MINUS (all_marked SP os ++ old) = false /\ overb (all_marked SP os ++ old) = true).
      { destruct os as [|o os]; [|split; reflexivity]. destruct LE as [LE|[[LE ->]|[LE _]]]; [|split; reflexivity|cbn in LE; lia].
        destruct ns; [destruct NE; contradiction|discriminate LE]. }
      assert (B : mark_is PLUS (all_marked SP ns ++ new) = false /\ overb (all_marked SP ns ++ new) = true).
      { destruct ns as [|o ns]; [|split; reflexivity]. destruct LE as [LE|[[LE _]|[LE ->]]]; [|cbn in LE; lia|split; reflexivity].
        destruct os; [destruct NE; contradiction|discriminate LE]. }
      destruct A as [-> ->], B as [-> ->]. cbn [andb]. destruct os as [|o os]; [|reflexivity]. destruct ns as [|n ns]; [destruct NE; contradiction|].
      cbn [all_marked map app]. destruct old; reflexivity. }
    rewrite K. exists os, ns, old, new, d, ds. auto 12.
  - assert (K : kind_of (all_marked BANG os ++ old) (all_marked BANG ns ++ new) = KChanged).
    { unfold kind_of.
      assert (A : mark_is MINUS (all_marked BANG os ++ old) = false) by (destruct os; [apply mark_is_not; auto|reflexivity]).
      assert (B : mark_is PLUS (all_marked BANG ns ++ new) = false) by (destruct ns; [apply mark_is_not; auto|reflexivity]).
      rewrite A, B. destruct NE as [NE|NE].
      - rewrite (overb_marked BANG os old NE), (mark_marked BANG BANG os old NE). reflexivity.
      - rewrite (overb_marked BANG ns new NE), (mark_marked BANG BANG ns new NE), andb_false_r, orb_true_r. reflexivity. }
    rewrite K. exists os, ns, old, new, d, ds. auto 12.
  - assert (K : kind_of old new = KWrong).
    { unfold kind_of. rewrite (proj2 (mark_is_not MINUS old) N1), (proj2 (mark_is_not PLUS new) N2), (proj2 (mark_is_not BANG old) N3), (proj2 (mark_is_not BANG new) N4).
      destruct W as [W|W]; rewrite (overb_not _ _ W) by discriminate; rewrite ?andb_false_r; reflexivity. }
    rewrite K. reflexivity.
Qed.
Lemma both_same : forall os ns old new os' ns' old' new',
  all_marked SP os ++ old = all_marked SP os' ++ old' -> all_marked SP ns ++ new = all_marked SP ns' ++ new' ->
  (length os = length ns \/ ((length os < length ns)%nat /\ old = []) \/ ((length ns < length os)%nat /\ new = [])) ->
  (length os' = length ns' \/ ((length os' < length ns')%nat /\ old' = []) \/ ((length ns' < length os')%nat /\ new' = [])) ->
  ~ (over_or_common old /\ over_or_common new /\ (old <> [] \/ new <> [])) ->
  ~ (over_or_common old' /\ over_or_common new' /\ (old' <> [] \/ new' <> [])) ->
  os = os' /\ ns = ns' /\ old = old' /\ new = new'.
Proof.
  assert (G : forall n os ns old new os' ns' old' new', (length os + length ns <= n)%nat ->
    all_marked SP os ++ old = all_marked SP os' ++ old' -> all_marked SP ns ++ new = all_marked SP ns' ++ new' ->
    (length os = length ns \/ ((length os < length ns)%nat /\ old = []) \/ ((length ns < length os)%nat /\ new = [])) ->
    (length os' = length ns' \/ ((length os' < length ns')%nat /\ old' = []) \/ ((length ns' < length os')%nat /\ new' = [])) ->
    ~ (over_or_common old /\ over_or_common new /\ (old <> [] \/ new <> [])) ->
    ~ (over_or_common old' /\ over_or_common new' /\ (old' <> [] \/ new' <> [])) ->
    os = os' /\ ns = ns' /\ old = old' /\ new = new').
  { induction n as [|n IH]; intros os ns old new os' ns' old' new' L EO EN LE LE' NO NO'.
    - destruct os; [|cbn in L; lia]. destruct ns; [|cbn in L; lia]. cbn [all_marked map app] in *. subst old new.
      destruct os' as [|o' os'].
      + destruct ns' as [|n' ns']; [auto|]. exfalso. destruct LE' as [X|[[_ ->]|[X _]]]; [discriminate|..|cbn in X; lia].
        apply NO. cbn. split; [left; reflexivity|]. split; [right; reflexivity|right; discriminate].
      + exfalso. apply NO. split; [right; reflexivity|]. split; [|left; discriminate].
        destruct ns' as [|n' ns']; [|right; reflexivity]. destruct LE' as [X|[[X _]|[_ ->]]]; [discriminate|cbn in X; lia|left; reflexivity].
    - destruct os as [|o os]; destruct ns as [|m ns].
      + apply (IH [] []); auto. cbn. lia.
      + destruct LE as [X|[[_ ->]|[X _]]]; [discriminate| |cbn in X; lia]. cbn [all_marked map app] in EO. symmetry in EO. apply app_eq_nil in EO as [EO ->].
        destruct os'; [|discriminate]. destruct ns' as [|m' ns'].
        * exfalso. cbn [all_marked map app] in EN. apply NO'. rewrite <- EN. split; [left; reflexivity|]. split; [right; reflexivity|right; discriminate].
        * cbn [all_marked map app] in EN. injection EN as -> EN. destruct (IH [] ns [] new [] ns' [] new') as (_ & -> & _ & ->); auto; cbn in *; try lia.
          -- destruct ns; [left; reflexivity|right; left; split; [cbn; lia|reflexivity]].
          -- destruct ns'; [left; reflexivity|right; left; split; [cbn; lia|reflexivity]].
      + destruct LE as [X|[[X _]|[_ ->]]]; [discriminate|cbn in X; lia|]. cbn [all_marked map app] in EN. symmetry in EN. apply app_eq_nil in EN as [EN ->].
        destruct ns'; [|discriminate]. destruct os' as [|o' os'].
        * exfalso. cbn [all_marked map app] in EO. apply NO'. rewrite <- EO. split; [right; reflexivity|]. split; [left; reflexivity|left; discriminate].
        * cbn [all_marked map app] in EO. injection EO as -> EO. destruct (IH os [] old [] os' [] old' []) as (-> & _ & -> & _); auto; cbn in *; try lia.
          -- destruct os; [left; reflexivity|right; right; split; [cbn; lia|reflexivity]].
          -- destruct os'; [left; reflexivity|right; right; split; [cbn; lia|reflexivity]].
      + assert (C : os' <> [] /\ ns' <> []).
        { destruct os' as [|o' os'].
          - exfalso. cbn [all_marked map app] in EO. destruct LE' as [X|[[X Y]|[X _]]]; [|rewrite Y in EO; discriminate EO|cbn in X; lia].
            destruct ns'; [|discriminate X]. cbn [all_marked map app] in EN. apply NO'. rewrite <- EO, <- EN. split; [right; reflexivity|]. split; [right; reflexivity|left; discriminate].
          - split; [discriminate|]. intros ->. cbn [all_marked map app] in EN. destruct LE' as [X|[[X _]|[X Y]]]; [discriminate X|cbn in X; lia|]. rewrite Y in EN. discriminate EN. }
        destruct C as [C1 C2]. destruct os' as [|o' os']; [contradiction|]. destruct ns' as [|m' ns']; [contradiction|].
        cbn [all_marked map app] in EO, EN. injection EO as -> EO. injection EN as -> EN.
        destruct (IH os ns old new os' ns' old' new') as (-> & -> & -> & ->); auto; cbn in *; try lia.
        * destruct LE as [X|[[X Y]|[X Y]]]; [left; lia|right; left; split; [lia|exact Y]|right; right; split; [lia|exact Y]].
        * destruct LE' as [X|[[X Y]|[X Y]]]; [left; lia|right; left; split; [lia|exact Y]|right; right; split; [lia|exact Y]]. }
  intros os ns old new os' ns' old' new'. eapply G. apply le_n.
Qed.
Lemma paired_same n : forall old new ds ds', (length old + length new <= n)%nat -> paired old new ds -> paired old new ds' ->
  map difference_shows ds = map difference_shows ds'.
Proof.
  assert (LM : forall x ts cs, length (all_marked x ts ++ cs) = (length ts + length cs)%nat) by (intros; unfold all_marked; now rewrite app_length, map_length).
  assert (PO : forall (ts : list str), ts <> [] -> (0 < length ts)%nat) by (intros [|] N; [contradiction|cbn; lia]).
  induction n as [|n IH]; intros old new ds ds' L H H'; apply paired_step in H; apply paired_step in H'; unfold step in *; destruct (kind_of old new) eqn:K;
    try (subst; reflexivity).
  1-4: destruct old; [|cbn in L; lia]; destruct new; [|cbn in L; lia]; discriminate K.
  - destruct H as (ts & o1 & d & ds1 & -> & -> & NE & NM & SH & PR). destruct H' as (ts' & o2 & d' & ds2 & -> & E & NE' & NM' & SH' & PR').
    apply marked_same in E as [<- <-]; auto. apply shows_iff in SH. apply shows_iff in SH'. cbn [map]. rewrite SH, SH'. f_equal.
    eapply IH; [|exact PR|exact PR']. rewrite LM in L. specialize (PO _ NE). lia.
  - destruct H as (ts & o1 & d & ds1 & -> & -> & NE & NM & SH & PR). destruct H' as (ts' & o2 & d' & ds2 & -> & E & NE' & NM' & SH' & PR').
    apply marked_same in E as [<- <-]; auto. apply shows_iff in SH. apply shows_iff in SH'. cbn [map]. rewrite SH, SH'. f_equal.
    eapply IH; [|exact PR|exact PR']. rewrite LM in L. specialize (PO _ NE). lia.
  - destruct H as (os & ns & o1 & n1 & d & ds1 & -> & -> & -> & NE & LE & NO & SH & PR).
    destruct H' as (os' & ns' & o2 & n2 & d' & ds2 & -> & E1 & E2 & NE' & LE' & NO' & SH' & PR').
    destruct (both_same _ _ _ _ _ _ _ _ E1 E2 LE LE' NO NO') as (<- & <- & <- & <-).
    apply shows_iff in SH. apply shows_iff in SH'. cbn [map]. rewrite SH, SH'. f_equal.
    eapply IH; [|exact PR|exact PR']. rewrite !LM in L. destruct NE as [NE|NE]; specialize (PO _ NE); lia.
  - destruct H as (os & ns & o1 & n1 & d & ds1 & -> & -> & -> & NE & N1 & N2 & SH & PR).
    destruct H' as (os' & ns' & o2 & n2 & d' & ds2 & -> & E1 & E2 & NE' & N1' & N2' & SH' & PR').
    apply marked_same in E1 as [<- <-]; auto. apply marked_same in E2 as [<- <-]; auto.
    apply shows_iff in SH. apply shows_iff in SH'. cbn [map]. rewrite SH, SH'. f_equal.
    eapply IH; [|exact PR|exact PR']. rewrite !LM in L. destruct NE as [NE|NE]; specialize (PO _ NE); lia.
Qed.

(** * Hunks of context diffs *)
Lemma star_same l f f' : star_line l f -> star_line l f' -> f = f'.
Proof. intros H H'. apply star_match in H as (c & M & <-). apply star_match in H' as (c' & M' & <-). rewrite M in M'. now injection M' as <-. Qed.
Lemma old_range_same l f f' : old_range l f -> old_range l f' -> f = f'.
Proof. intros H H'. apply old_range_match in H as (c & M & <-). apply old_range_match in H' as (c' & M' & <-). rewrite M in M'. now injection M' as <-. Qed.
Lemma new_range_same l f f' : new_range l f -> new_range l f' -> f = f'.
Proof. intros H H'. apply new_range_match in H as (c & M & <-). apply new_range_match in H' as (c' & M' & <-). rewrite M in M'. now injection M' as <-. Qed.
Lemma new_range_no_cline l b ls : new_range l b -> no_cline (l :: ls).
Proof. intros [n k _ _] c r _ E. apply (f_equal (fun l => nth 1 (hd [] l) 0%N)) in E. change (45%N = 32%N) in E. discriminate E. Qed.
Lemma chunks_same ls hs rest : chunks ls hs rest -> forall hs' rest', chunks ls hs' rest' ->
  map hunk_shows hs = map hunk_shows hs' /\ rest = rest'.
Proof.
  induction 1 as [rest N|l f rest S N|l f l2 a old l3 ls hs rest S R F NC N3 CK IH|l f l2 a old l3 b new h ds ls hs rest S R F R3 FN NC PR CT PS A1 A2 A3 A4 CK IH];
    intros hs' rest' H'.
  - inversion H'; subst; auto; exfalso; eapply N; eauto.
  - inversion H'; subst; auto; exfalso; [|eapply N; eauto|eapply N; eauto].
    match goal with K : forall l rest' f, _ = l :: rest' -> _ |- _ => eapply K; eauto end.
  - inversion H' as [r N'|l' f' r S' N'|l' f' l2' a' old' l3' ls' hs0 rest0 S' R' F' NC' N3' CK' E1 E2|l' f' l2' a' old' l3' b' new' h' ds' ls' hs0 rest0 S' R' F' R3' FN' NC' PR' CT' PS' B1 B2 B3 B4 CK' E1 E2]; subst.
    + exfalso. eapply N'; eauto.
    + exfalso. eapply N'; eauto.
    + match goal with E : map cline_text old' ++ _ = _ |- _ => symmetry in E; apply clines_same in E as [<- E]; auto end.
      match goal with E : l3 :: ls = _ |- _ => injection E as <- <- end. now apply IH.
    + exfalso. match goal with E : map cline_text old' ++ _ = _ |- _ => symmetry in E; apply clines_same in E as [<- E]; auto; [|eapply new_range_no_cline; eauto] end.
      match goal with E : l3 :: ls = _ |- _ => injection E as <- _ end. eapply N3; eauto.
  - inversion H' as [r N'|l' f' r S' N'|l' f' l2' a' old' l3' ls' hs0 rest0 S' R' F' NC' N3' CK' E1 E2|l' f' l2' a' old' l3' b' new' h' ds' ls' hs0 rest0 S' R' F' R3' FN' NC' PR' CT' PS' B1 B2 B3 B4 CK' E1 E2]; subst.
    + exfalso. eapply N'; eauto.
    + exfalso. eapply N'; eauto.
    + exfalso. match goal with E : map cline_text old' ++ _ = _ |- _ => symmetry in E; apply clines_same in E as [<- E]; auto; [|eapply new_range_no_cline; eauto] end.
      match goal with E : l3 :: _ = _ |- _ => injection E as <- _ end. eapply N3'; eauto.
    + match goal with E : map cline_text old' ++ _ = _ |- _ => symmetry in E; apply clines_same in E as [<- E]; auto; [|eapply new_range_no_cline; eauto|eapply new_range_no_cline; eauto] end.
      match goal with E : l3 :: _ = _ |- _ => injection E as <- E; apply clines_same in E as [<- <-]; auto end.
      apply IH in CK' as [E3 <-]. split; [|reflexivity]. cbn [map]. rewrite E3. f_equal. unfold hunk_shows. cbn [fst snd].
      rewrite (old_range_same _ _ _ R R'), (new_range_same _ _ _ R3 R3'), (star_same _ _ _ S S'). f_equal.
      eapply paired_same; [apply le_n|exact PR|exact PR'].
Qed.
