(** C104: diffs with Windows line ends. *)
From Coq Require Import String Permutation.
From Verif Require Import Base QtStr Lev Diff Regex Patterns Parser SpecPatch SpecParse SpecLines SpecCr SpecRegex
  PRegex PRegexLang PHeaders PNormalDoc PAnyInput PLineUnified PCr PropsParse PropsLines PropsCrash PropsNormal PropsUnified.
Local Open Scope Z_scope.

(** * Beginnings of lines *)
Definition line_end (c : chr) : Prop := c = CR \/ c = NL.
Definition ends_well (w : str) : Prop := forall w0 x, w = w0 ++ [x] -> ~ line_end x.
Lemma strip w rest T s : w ++ rest = T ++ s -> Forall line_end s -> ends_well w -> exists r, T = w ++ r.
Proof.
  intros E F W. apply app_eq_app in E as (l & [[A B]|[A B]]); [|eauto].
  destruct l as [|c l]; [exists []; rewrite app_nil_r in *; auto|]. exfalso.
  destruct (@exists_last _ (c :: l)) as (q & z & Q); [discriminate|]. rewrite Q in *. rewrite app_assoc in A. apply (W _ _ A).
  rewrite Forall_forall in F. apply F. rewrite B. apply in_or_app. left. apply in_or_app. right. left. reflexivity.
Qed.
Lemma prefix_cr w l l' : crlf l l' -> ends_well w -> (exists r, l = w ++ r) <-> (exists r, l' = w ++ r).
Proof.
  intros (T & O & -> & ->) W.
  assert (F1 : Forall line_end [NL]) by (constructor; [right; reflexivity|constructor]).
  assert (F2 : Forall line_end [CR; NL]) by (constructor; [left; reflexivity|exact F1]).
  split; intros (r & E); symmetry in E; apply strip in E as (r' & ->); auto; rewrite <- app_assoc; eauto.
Qed.
Lemma text_ends s : forallb (fun c => negb (N.eqb c CR || N.eqb c NL)) (lit s) = true -> ends_well (lit s).
Proof.
  intros H w x E [->| ->]; rewrite E, forallb_app in H; apply andb_prop in H as [_ H]; discriminate H.
Qed.
Definition well_ended (a : re) : Prop := forall w, lang a w -> ends_well w.
Lemma we_seq a b : well_ended a -> well_ended b -> well_ended (RSeq a b).
Proof.
  intros A B w L. inversion L; subst. intros w0 x E. destruct v as [|c v].
  - rewrite app_nil_r in *. eapply A; eauto.
  - destruct (@exists_last _ (c :: v)) as (q & z & Q); [discriminate|]. rewrite Q in *. rewrite app_assoc in E. apply app_inj_tail in E as [_ <-].
    eapply B; eauto.
Qed.
Lemma we_last a b : well_ended b -> ~ lang b [] -> well_ended (RSeq a b).
Proof.
  intros B N w L. inversion L; subst. intros w0 x E. destruct v as [|c v]; [contradiction|].
  destruct (@exists_last _ (c :: v)) as (q & z & Q); [discriminate|]. rewrite Q in *. rewrite app_assoc in E. apply app_inj_tail in E as [_ <-].
  eapply B; eauto.
Qed.
Lemma we_eps : well_ended REps.
Proof. intros w L. inversion L; subst. intros w0 x E. destruct w0; discriminate. Qed.
Lemma we_chr p : p CR = false -> p NL = false -> well_ended (RChr p).
Proof. intros A B w L. inversion L; subst. intros w0 y E. destruct w0 as [|c [|]]; [|discriminate|discriminate]. injection E as <-. intros [->| ->]; congruence. Qed.
Lemma we_alt a b : well_ended a -> well_ended b -> well_ended (RAlt a b).
Proof. intros A B w L. inversion L; subst; eauto. Qed.
Lemma we_star g a : well_ended a -> well_ended (RStar g a).
Proof.
  intros A w L. remember (RStar g a) as r eqn:R. induction L as [| | | | |g' a'|g' a' u v L1 _ L2 IH|]; try discriminate R.
  - intros w0 x E. destruct w0; discriminate.
  - injection R as -> ->. intros w0 x E. destruct v as [|c v].
    + rewrite app_nil_r in E. eapply A; eauto.
    + destruct (@exists_last _ (c :: v)) as (q & z & Q); [discriminate|]. rewrite Q in *. rewrite app_assoc in E. apply app_inj_tail in E as [_ <-].
      eapply IH; eauto.
Qed.
Lemma at_start_cr a l l' : well_ended a -> crlf l l' -> at_start a l = at_start a l'.
Proof.
  intros W C. apply eq_iff_eq_true. rewrite !at_start_lang. split; intros (w & rest & E & L).
  - destruct (proj1 (prefix_cr w _ _ C (W _ L)) (ex_intro _ rest E)) as [r ->]. eauto.
  - destruct (proj2 (prefix_cr w _ _ C (W _ L)) (ex_intro _ rest E)) as [r ->]. eauto.
Qed.
Ltac well := repeat (apply we_seq || apply we_alt || apply we_star || apply we_eps || (apply we_chr; reflexivity)).
Lemma format_cr g ls ls' : Forall2 crlf ls ls' -> determine_format g ls = determine_format g ls'.
Proof.
  assert (X : forall l l', crlf l l' -> line_format g l = line_format g l').
  { intros l l' C. assert (A : forall a, well_ended a -> at_start a l = at_start a l') by (intros; now apply at_start_cr).
    assert (TB : well_ended tab /\ ~ lang tab []) by (split; [apply we_chr; reflexivity|intros L; inversion L]).
    assert (V : well_ended cvs_unified_re /\ well_ended cvs_context_re).
    { split; (apply we_seq; [well|apply we_last; apply TB]). }
    assert (R : well_ended normal_re /\ well_ended diff_unified_re /\ well_ended diff_context_re /\ well_ended rcs_re /\ well_ended ed_re).
    { repeat split; well. }
    assert (P : well_ended perforce_unified_re /\ well_ended perforce_context_re /\ well_ended perforce_normal_re /\ well_ended perforce_rcs_re).
    { repeat split; well. }
    destruct V as (V1 & V2), R as (R1 & R2 & R3 & R4 & R5), P as (P1 & P2 & P3 & P4).
    destruct g; unfold line_format.
    - now rewrite (A _ R1), (A _ V1), (A _ V2), (A _ R4), (A _ R5).
    - now rewrite (A _ R1), (A _ R2), (A _ R3), (A _ R4), (A _ R5).
    - now rewrite (A _ P1), (A _ P2), (A _ P3), (A _ P4). }
  induction 1 as [|l l' ls ls' C F IH]; cbn [determine_format]; [reflexivity|]. now rewrite (X _ _ C), IH.
Qed.
Lemma begins_cr s l l' : forallb (fun c => negb (N.eqb c CR || N.eqb c NL)) (lit s) = true -> crlf l l' -> starts_with (lit s) l = starts_with (lit s) l'.
Proof. intros H C. apply eq_iff_eq_true. rewrite !starts_with_app. apply prefix_cr; [exact C|now apply text_ends]. Qed.
Lemma generator_cr ls ls' : Forall2 crlf ls ls' -> determine_generator ls = determine_generator ls'.
Proof.
  induction 1 as [|l l' ls ls' C F IH]; cbn [determine_generator]; [reflexivity|].
  rewrite (begins_cr "Index: " _ _ eq_refl C), (begins_cr "==== " _ _ eq_refl C), IH. reflexivity.
Qed.

(** * Files *)
Lemma start_cr l l' : crlf l l' -> ~ unfinished l -> (unified_start l <-> unified_start l').
Proof.
  intros C U. split; intros (p & t & H).
  - eapply header_cr in H as (p' & t' & H & _); [|exact C]. now exists p', t'.
  - eapply header_cr_back in H as (p' & t' & H); [|left; reflexivity|exact C|exact U]. now exists p', t'.
Qed.
Definition finished (ls : list str) : Prop := Forall (fun l => ~ unfinished l) ls.
Lemma none_cr ls ls' : Forall2 crlf ls ls' -> finished ls -> Forall (fun l => ~ unified_start l) ls -> Forall (fun l => ~ unified_start l) ls'.
Proof.
  induction 1 as [|l l' ls ls' C F IH]; intros K N; [constructor|]. inversion K; subst. inversion N; subst. constructor; [|auto].
  rewrite <- (start_cr _ _ C); auto.
Qed.
Lemma unexpected_cr ls ls' : Forall2 crlf ls ls' -> finished ls -> (unexpected unified_start ls <-> unexpected unified_start ls').
Proof.
  intros F K. destruct F as [|l l' ls ls' C F].
  - split; intros (x & y & E & _); discriminate E.
  - inversion K as [|? ? U _]; subst. pose proof (start_cr _ _ C U) as S.
    assert (B : forall s, forallb (fun c => negb (N.eqb c CR || N.eqb c NL)) (lit s) = true -> (forall x, l <> lit s ++ x) <-> (forall x, l' <> lit s ++ x)).
    { intros s H. pose proof (prefix_cr (lit s) _ _ C (text_ends _ H)) as [P Q]. split; intros N x E.
      - destruct Q as [r E']; [eauto|]. eapply N; eauto.
      - destruct P as [r E']; [eauto|]. eapply N; eauto. }
    pose proof (B "Index: "%string eq_refl) as B1. pose proof (B "diff "%string eq_refl) as B2. pose proof (B "-- "%string eq_refl) as B3.
    split; intros (x & y & E & N & G); injection E as <- <-; eexists _, _; (split; [reflexivity|]); (split; [tauto|]); intros x;
      (repeat split; [apply B1|apply B2|apply B3]; intros z; apply (G z)).
Qed.
Lemma some_cut path : exists dir file, cut_at_slash path dir file.
Proof.
  induction path as [|c path (dir & file & [W N D])].
  - exists [], []. split; auto.
  - destruct D as [->|[d ->]].
    + destruct (N.eq_dec c SLASH) as [->|NE].
      * exists [SLASH], file. split; [cbn [app] in *; now rewrite <- W|exact N|]. right. exists []. reflexivity.
      * exists [], (c :: file). split; [cbn [app] in *; now rewrite <- W| |auto]. intros [I|I]; auto.
    + exists (c :: d ++ [SLASH]), file. split; [cbn [app]; now rewrite <- W|exact N|]. right. exists (c :: d). reflexivity.
Qed.
Lemma some_named s d t1 t2 : exists m, named m s d t1 t2.
Proof.
  destruct (some_cut s) as (sp & sf & C1), (some_cut d) as (dp & df & C2).
  exists (mk_model s d sp dp sf df t1 t2 [] [] [] [] [] 0 0 None false). split; auto.
Qed.
Lemma header_same mark l p t p' t' : header_line (lit mark) l p t -> header_line (lit mark) l p' t' -> p = p' /\ t = t'.
Proof. apply header_line_same. Qed.
Lemma heading_cr l1 l2 l1' l2' m m' : crlf l1 l1' -> crlf l2 l2' -> unified_heading [l1; l2] m -> unified_heading [l1'; l2'] m' ->
  crlf_name (dm_source m) (dm_sts m) (dm_source m') (dm_sts m') /\ crlf_name (dm_destination m) (dm_dts m) (dm_destination m') (dm_dts m').
Proof.
  intros C1 C2 H H'. inversion H as [? p1 t1 ? p2 t2 ? A B [N1 N2 _ _ N3 N4 _ _]]; subst. inversion H' as [? p1' t1' ? p2' t2' ? A' B' [M1 M2 _ _ M3 M4 _ _]]; subst.
  destruct (header_cr _ _ _ _ _ C1 A) as (q1 & s1 & X1 & Y1). destruct (header_cr _ _ _ _ _ C2 B) as (q2 & s2 & X2 & Y2).
  destruct (header_same _ _ _ _ _ _ X1 A') as [-> ->]. destruct (header_same _ _ _ _ _ _ X2 B') as [-> ->].
  rewrite N1, N2, M1, M2. split; unfold crlf_name.
  - destruct Y1 as [(T1 & -> & T2)|(T1 & T2 & ->)]; [left|right]; repeat split; auto. eauto.
  - destruct Y2 as [(T1 & -> & T2)|(T1 & T2 & ->)]; [left|right]; repeat split; auto. eauto.
Qed.
Lemma heading_cr_there l1 l2 l1' l2' m : crlf l1 l1' -> crlf l2 l2' -> unified_heading [l1; l2] m -> exists m', unified_heading [l1'; l2'] m'.
Proof.
  intros C1 C2 H. inversion H as [? p1 t1 ? p2 t2 ? A B _]; subst.
  destruct (header_cr _ _ _ _ _ C1 A) as (q1 & s1 & X1 & _). destruct (header_cr _ _ _ _ _ C2 B) as (q2 & s2 & X2 & _).
  destruct (some_named (unescape_path q1) (unescape_path q2) s1 s2) as [m' N]. exists m'. eapply uh_intro; eauto.
Qed.
Lemma heading_cr_back l1 l2 l1' l2' m : crlf l1 l1' -> crlf l2 l2' -> ~ unfinished l1 -> ~ unfinished l2 -> unified_heading [l1'; l2'] m -> exists m', unified_heading [l1; l2] m'.
Proof.
  intros C1 C2 U1 U2 H. inversion H as [? p1 t1 ? p2 t2 ? A B _]; subst.
  destruct (header_cr_back _ _ _ _ _ (or_introl eq_refl) C1 U1 A) as (q1 & s1 & X1). destruct (header_cr_back _ _ _ _ _ (or_intror eq_refl) C2 U2 B) as (q2 & s2 & X2).
  destruct (some_named (unescape_path q1) (unescape_path q2) s1 s2) as [m' N]. exists m'. eapply uh_intro; eauto.
Qed.
Lemma run_rest P mark da db ca cb ls ts ca' cb' rest : run mark da db ca cb ls ts ca' cb' rest -> Forall P ls -> Forall P rest.
Proof. induction 1; intros F; [exact F|]. inversion F; subst. auto. Qed.
Lemma counted_rest P ca cb ls ds rest : counted ca cb ls ds rest -> Forall P ls -> Forall P rest.
Proof. induction 1; intros F; [exact F| |]; eauto using run_rest. Qed.
Lemma patches_rest P ls hs rest : patches ls hs rest -> Forall P ls -> Forall P rest.
Proof. induction 1; intros F; [exact F| |]; inversion F; subst; eauto using counted_rest. Qed.
Lemma all_context_cr hs hs' : Forall2 crlf_hunk hs hs' ->
  (forall h ds, In (h, ds) hs -> Forall (fun d => is_context d = true) ds) <-> (forall h ds, In (h, ds) hs' -> Forall (fun d => is_context d = true) ds).
Proof.
  assert (X : forall ds ds', Forall2 crlf_difference ds ds' -> (Forall (fun d => is_context d = true) ds <-> Forall (fun d => is_context d = true) ds')).
  { induction 1 as [|d d' ds ds' (T & _) F IH]; [split; constructor|]. rewrite !Forall_cons_iff, IH. unfold is_context. rewrite T. tauto. }
  induction 1 as [|[h ds] [h' ds'] hs hs' (_ & _ & _ & _ & D) F IH]; [split; intros _ ? ? []|]. cbn [fst snd] in D. apply X in D.
  split; intros H g es [E|I].
  - injection E as <- <-. apply D. eapply H. left. reflexivity.
  - destruct IH as [IH _]. eapply IH; [|exact I]. intros. eapply H. right. eassumption.
  - injection E as <- <-. apply D. eapply H. left. reflexivity.
  - destruct IH as [_ IH]. eapply IH; [|exact I]. intros. eapply H. right. eassumption.
Qed.
Lemma align skip l x skip' l' x' : Forall2 crlf (skip ++ l :: x) (skip' ++ l' :: x') -> finished (skip ++ l :: x) ->
  Forall (fun l => ~ unified_start l) skip -> Forall (fun l => ~ unified_start l) skip' -> unified_start l -> unified_start l' ->
  crlf l l' /\ Forall2 crlf x x' /\ ~ unfinished l /\ finished x.
Proof.
  intros F K N N' S S'. apply Forall_app in K as [K1 K2]. inversion K2 as [|? ? U K3]; subst.
  apply Forall2_app_inv_l in F as (s2 & r2 & F1 & F2 & E). inversion F2 as [|? k ? y C F3]; subst.
  apply (first_start unified_start) in E as (-> & -> & ->); auto.
  - eapply none_cr; eauto.
  - apply (start_cr _ _ C U). exact S.
Qed.
Lemma heading_two hd m : unified_heading hd m -> exists l1 l2, hd = [l1; l2] /\ unified_start l1.
Proof. intros [l1 p1 t1 l2 p2 t2 m' A B C]. exists l1, l2. split; [reflexivity|]. do 2 eexists; exact A. Qed.
Lemma files_both ls ms b : files_with unified_start unified_heading patches ls ms b -> forall ls' ms' b', Forall2 crlf ls ls' -> finished ls ->
  files_with unified_start unified_heading patches ls' ms' b' -> Forall2 crlf_file ms ms' /\ b = b'.
Proof.
  assert (NB : forall b b' r r', Forall2 crlf r r' -> finished r -> (b = true <-> unexpected unified_start r) -> (b' = true <-> unexpected unified_start r') -> b = b').
  { intros [] [] r r' F K A B; auto; pose proof (unexpected_cr _ _ F K); [symmetry|]; tauto. }
  assert (NS : forall skip (l : str) x, unified_start l -> ~ Forall (fun l => ~ unified_start l) (skip ++ l :: x)).
  { intros skip l x S F. apply Forall_app in F as [_ F]. inversion F; subst. contradiction. }
  assert (NR : forall skip (l : str) x r, unified_start l -> finished r -> Forall2 crlf r (skip ++ l :: x) -> ~ Forall (fun l => ~ unified_start l) r).
  { intros skip l x r S K C F. exact (NS _ _ _ S (none_cr _ _ C K F)). }
  assert (NL : forall skip (l : str) x r, unified_start l -> finished (skip ++ l :: x) -> Forall2 crlf (skip ++ l :: x) r -> ~ Forall (fun l => ~ unified_start l) r).
  { intros skip l x r S K C F. apply Forall2_app_inv_l in C as (s2 & r2 & _ & C2 & ->). inversion C2 as [|? k ? y CC C3]; subst.
    apply Forall_app in K as [_ K]. inversion K as [|? ? U _]; subst. apply (NS _ _ _ (proj1 (start_cr _ _ CC U) S) F). }
  induction 1 as [rest F|skip l rest F S N|skip hd body hs m ls ms b bad F K R C NE B FW IH|skip hd m0 body hs ls ms b bad F K R ALL B FW IH]; intros ls' ms' b' FC FIN H'.
  - inversion H' as [? F'|skip' l' rest' F' S' N' E|skip' hd' body' hs' m' ls2 ms2 b2 bad' F' K' R' C' NE' B' FW'|skip' hd' m0' body' hs' ls2 ms2 b2 bad' F' K' R' ALL' B' FW']; subst.
    + split; constructor.
    + split; constructor.
    + exfalso. destruct (heading_two _ _ K') as (k1 & k2 & -> & S'). cbn [app] in *. eapply NR; eauto.
    + exfalso. destruct (heading_two _ _ K') as (k1 & k2 & -> & S'). cbn [app] in *. eapply NR; eauto.
  - assert (ST : forall skip' hd' body' m', Forall (fun l => ~ unified_start l) skip' -> unified_heading hd' m' ->
       Forall2 crlf (skip ++ l :: rest) (skip' ++ hd' ++ body') -> False).
    { intros skip' hd' body' m' F' K' FC'. destruct (heading_two _ _ K') as (k1 & k2 & -> & S'). cbn [app] in FC'.
      apply align in FC' as (C1 & C2 & U1 & FIN'); auto. inversion C2 as [|l2 ? x ? CC C3]; subst. inversion FIN' as [|? ? U2 _]; subst.
      destruct (heading_cr_back _ _ _ _ _ C1 CC U1 U2 K') as [m K]. apply (N [l; l2] x m); [reflexivity|exact K]. }
    inversion H' as [? F'|skip' l' rest' F' S' N' E|skip' hd' body' hs' m' ls2 ms2 b2 bad' F' K' R' C' NE' B' FW'|skip' hd' m0' body' hs' ls2 ms2 b2 bad' F' K' R' ALL' B' FW']; subst.
    + split; constructor.
    + split; constructor.
    + exfalso. eauto.
    + exfalso. eauto.
  - destruct (heading_two _ _ K) as (l1 & l2 & -> & S). cbn [app] in *.
    inversion H' as [? F'|skip' l' rest' F' S' N' E|skip' hd' body' hs' m' ls2 ms2 b2 bad' F' K' R' C' NE' B' FW'|skip' hd' m0' body' hs' ls2 ms2 b2 bad' F' K' R' ALL' B' FW']; subst.
    + exfalso. eapply NL; eauto.
    + exfalso. apply align in FC as (C1 & C2 & U1 & FIN'); auto. inversion C2 as [|? k2 ? x CC C3]; subst.
      destruct (heading_cr_there _ _ _ _ _ C1 CC K) as [m' K']. apply (N' [l'; k2] x m'); [reflexivity|exact K'].
    + destruct (heading_two _ _ K') as (k1 & k2 & -> & S'). cbn [app] in *. apply align in FC as (C1 & C2 & U1 & FIN'); auto.
      inversion C2 as [|? ? ? ? CC C3]; subst. inversion FIN' as [|? ? U2 FIN2]; subst. destruct (patches_both _ _ _ R _ _ _ C3 R') as [SH RS].
      pose proof (patches_rest _ _ _ _ R FIN2) as FIN3. destruct (IH _ _ _ RS FIN3 FW') as [F2 <-]. rewrite (NB _ _ _ _ RS FIN3 B B'). split; [|reflexivity].
      constructor; [|exact F2]. destruct (heading_cr _ _ _ _ _ _ C1 CC K K') as [N1 N2]. split; [exact N1|]. split; [exact N2|]. eauto.
    + exfalso. destruct (heading_two _ _ K') as (k1 & k2 & -> & S'). cbn [app] in *. apply align in FC as (C1 & C2 & U1 & FIN'); auto.
      inversion C2 as [|? ? ? ? CC C3]; subst. destruct (patches_both _ _ _ R _ _ _ C3 R') as [SH RS].
      apply (listed_not_context _ _ C NE). exact (proj2 (all_context_cr _ _ SH) ALL').
  - destruct (heading_two _ _ K) as (l1 & l2 & -> & S). cbn [app] in *.
    inversion H' as [? F'|skip' l' rest' F' S' N' E|skip' hd' body' hs' m' ls2 ms2 b2 bad' F' K' R' C' NE' B' FW'|skip' hd' m0' body' hs' ls2 ms2 b2 bad' F' K' R' ALL' B' FW']; subst.
    + exfalso. eapply NL; eauto.
    + exfalso. apply align in FC as (C1 & C2 & U1 & FIN'); auto. inversion C2 as [|? k2 ? x CC C3]; subst.
      destruct (heading_cr_there _ _ _ _ _ C1 CC K) as [m' K']. apply (N' [l'; k2] x m'); [reflexivity|exact K'].
    + exfalso. destruct (heading_two _ _ K') as (k1 & k2 & -> & S'). cbn [app] in *. apply align in FC as (C1 & C2 & U1 & FIN'); auto.
      inversion C2 as [|? ? ? ? CC C3]; subst. destruct (patches_both _ _ _ R _ _ _ C3 R') as [SH RS].
      apply (listed_not_context _ _ C' NE'). exact (proj1 (all_context_cr _ _ SH) ALL).
    + destruct (heading_two _ _ K') as (k1 & k2 & -> & S'). cbn [app] in *. apply align in FC as (C1 & C2 & U1 & FIN'); auto.
      inversion C2 as [|? ? ? ? CC C3]; subst. inversion FIN' as [|? ? U2 FIN2]; subst. destruct (patches_both _ _ _ R _ _ _ C3 R') as [SH RS].
      pose proof (patches_rest _ _ _ _ R FIN2) as FIN3. destruct (IH _ _ _ RS FIN3 FW') as [F2 <-]. rewrite (NB _ _ _ _ RS FIN3 B B'). split; [exact F2|reflexivity].
Qed.

(** A text read as a unified diff (not Perforce's), and the same text with Windows line ends: the same files, hunks and differences,
    whose lines keep the carriage return. *)
Theorem C104_unified_windows_line_ends_partial :
  forall sort ls ls' o o', (forall l, Permutation (sort l) l) ->
  Forall2 crlf ls ls' -> Forall (fun l => ~ no_newline_marker l /\ ~ unfinished l) ls ->
  parse sort ls = Ok o -> parse sort ls' = Ok o' -> po_format o = Unified -> po_generator o <> Perforce ->
  po_generator o' = po_generator o /\ po_format o' = Unified /\ po_malformed o' = po_malformed o /\
  exists ms ms', Permutation (the_models (po_models o)) ms /\ Permutation (the_models (po_models o')) ms' /\ Forall2 crlf_file ms ms'.
Proof.
  intros sort ls ls' o o' HP F K H H' EF EG.
  assert (K1 : Forall (fun l => ~ no_newline_marker l) ls) by (eapply Forall_impl; [|exact K]; cbn; tauto).
  assert (K2 : finished ls) by (eapply Forall_impl; [|exact K]; cbn; tauto).
  assert (K3 : Forall (fun l => ~ no_newline_marker l) ls').
  { clear -F K1. induction F as [|l l' ls ls' C F IH]; [constructor|]. inversion K1; subst. constructor; [|auto].
    intros (x & E). assert (P : exists r, l' = lit "\ No newline" ++ r) by eauto. apply (prefix_cr _ _ _ C (text_ends "\ No newline" eq_refl)) in P. contradiction. }
  destruct (clean_same _ K1) as [n Q]. destruct (clean_same _ K3) as [n' Q'].
  assert (L : po_lines o = ls /\ po_generator o = determine_generator ls /\ po_format o = determine_format (determine_generator ls) ls).
  { clear -H Q. unfold parse in H. rewrite Q in H. cbn [bind] in H. destruct (base_parse _ _ _) as [[? ?]| |]; try discriminate H. cbn [bind] in H. injection H as <-. auto. }
  assert (L' : po_lines o' = ls' /\ po_generator o' = determine_generator ls' /\ po_format o' = determine_format (determine_generator ls') ls').
  { clear -H' Q'. unfold parse in H'. rewrite Q' in H'. cbn [bind] in H'. destruct (base_parse _ _ _) as [[? ?]| |]; try discriminate H'. cbn [bind] in H'. injection H' as <-. auto. }
  destruct L as (L1 & L2 & L3), L' as (L1' & L2' & L3').
  assert (G : po_generator o' = po_generator o) by (rewrite L2, L2'; symmetry; now apply generator_cr).
  assert (E : po_format o' = Unified).
  { rewrite L3', <- (generator_cr _ _ F), <- (format_cr _ _ _ F), <- L3. exact EF. }
  split; [exact G|]. split; [exact E|].
  destruct (C97_unified_lines sort ls o HP H EF) as (ms & P & R). destruct (C97_unified_lines sort ls' o' HP H' E) as (ms' & P' & R').
  rewrite G in R'. rewrite L1 in R. rewrite L1' in R'.
  assert (X : Forall2 crlf_file ms ms' /\ po_malformed o = po_malformed o').
  { destruct (po_generator o); [| |congruence]; eapply files_both; eauto. }
  destruct X as [X1 X2]. split; [auto|]. exists ms, ms'. auto.
Qed.
Print Assumptions C104_unified_windows_line_ends_partial.

(** * Where it is not so *)
Definition crnl (s : string) : str := lit s ++ [CR; NL].
Lemma crnl_lines ls : Forall (fun s => existsb (N.eqb NL) (lit s) = false) ls -> Forall2 crlf (map nl ls) (map crnl ls).
Proof.
  induction 1 as [|s ls H F IH]; cbn [map]; constructor; [|exact IH]. exists (lit s). split; [|auto].
  intros I. rewrite <- not_true_iff_false in H. apply H. apply existsb_exists. exists NL. auto.
Qed.
Definition t_context : list string := ["*** a"; "--- b"; "***************"; "*** 1,2 ****"; "! p"; "  r"; "--- 1,2 ----"; "! q"; "  r"]%string.
Definition t_normal : list string := ["1c1"; "< p"; "---"; "> q"]%string.
Definition t_perforce : list string := ["==== //d/a#1 - /home/a ===="; "@@ -1 +1 @@"; "-p"; "+q"]%string.
Definition t_marker : list string := ["--- a"; "+++ b"; "@@ -1 +1 @@"; "-p"; "\ No newline at end of file"; "+q"]%string.
Definition t_nameless : list string := ["--- "; "+++ "; "@@ -1 +1 @@"; "-p"; "+q"]%string.
(** With Windows line ends a context diff and a unified diff of Perforce give no files; of a changed line in a normal diff
    the new text is lost; a last line without line end still has the carriage return of the diff; and what was not a header
    is one. *)
Theorem C104_windows_line_ends_refuted :
  let unix ls := summary (parse (fun l => l) (map nl ls)) in
  let windows ls := summary (parse (fun l => l) (map crnl ls)) in
  Forall (fun ls => Forall2 crlf (map nl ls) (map crnl ls)) [t_context; t_normal; t_perforce; t_marker; t_nameless] /\
  unix t_context = Some ([[(Change, [lit "p"], [lit "q"]); (Unchanged, [lit "r"], [lit "r"])]], false) /\ windows t_context = Some ([], true) /\
  unix t_normal = Some ([[(Change, [lit "p"], [lit "q"])]], false) /\ windows t_normal = Some ([[(Change, [lit "p" ++ [CR]], [])]], true) /\
  unix t_perforce = Some ([[(Change, [nl "p"], [nl "q"])]], false) /\ windows t_perforce = Some ([], false) /\
  unix t_marker = Some ([[(Change, [lit "p"], [nl "q"])]], false) /\ windows t_marker = Some ([[(Change, [lit "p" ++ [CR]], [crnl "q"])]], false) /\
  unix t_nameless = Some ([], false) /\ windows t_nameless = Some ([[(Change, [crnl "p"], [crnl "q"])]], false).
Proof.
  split. { repeat (apply Forall_cons || apply Forall_nil); apply crnl_lines; repeat (apply Forall_cons || apply Forall_nil); reflexivity. }
  repeat split; vm_compute; reflexivity.
Qed.
Print Assumptions C104_windows_line_ends_refuted.

(** Two files, one stamped and one with a bare and quoted name: the quotes of the first name are not taken off any more, and its
    carriage return stays. *)
Definition t_unified : list string := ["--- ""a b"""; "+++ b"; "@@ -1,2 +1,2 @@ f()"; "-p"; "+q"; " r"; "--- c	1"; "+++ d	2	x"; "@@ -3 +4,0 @@"; "-s"; "rubbish"]%string.
Example C104_example :
  let shown o := map (fun m => (dm_source m, dm_sts m, dm_destination m, dm_dts m, map h_function (dm_hunks m),
    map (fun d => (d_type d, lines_of (d_slines d), lines_of (d_dlines d))) (dm_store m))) (the_models (po_models o)) in
  Forall2 crlf (map nl t_unified) (map crnl t_unified) /\
  Forall (fun l => ~ no_newline_marker l /\ ~ unfinished l) (map nl t_unified) /\
  exists o o', parse (fun l => l) (map nl t_unified) = Ok o /\ parse (fun l => l) (map crnl t_unified) = Ok o' /\
    po_format o = Unified /\ po_generator o = DiffDiff /\ po_malformed o' = true /\
    shown o = [(lit "a b", [], lit "b", [], [lit "f()"], [(Change, [nl "p"], [nl "q"]); (Unchanged, [nl "r"], [nl "r"])]);
               (lit "c", lit "1", lit "d", lit "2", [[]], [(Delete, [nl "s"], [])])] /\
    shown o' = [(lit """a b""" ++ [CR], [], lit "b" ++ [CR], [], [lit "f()" ++ [CR]], [(Change, [crnl "p"], [crnl "q"]); (Unchanged, [crnl "r"], [crnl "r"])]);
               (lit "c", lit "1" ++ [CR], lit "d", lit "2", [[CR]], [(Delete, [crnl "s"], [])])].
Proof.
  split. { apply crnl_lines. repeat (apply Forall_cons || apply Forall_nil); reflexivity. }
  split.
  { assert (B : forall s, starts_with (lit "\ No newline") (nl s) = false ->
       match nth_error (rev (nl s)) 1 with Some c => N.eqb c TAB || N.eqb c SP | None => false end = false \/
       (starts_with (lit "--- ") (nl s) = false /\ starts_with (lit "+++ ") (nl s) = false) -> ~ no_newline_marker (nl s) /\ ~ unfinished (nl s)).
    { intros s N H. split.
      - intros (x & E). rewrite E in N. rewrite (proj2 (starts_with_app _ _) (ex_intro _ x eq_refl)) in N. discriminate N.
      - intros (mark & M & U). assert (X : exists x, nl s = mark ++ x) by (destruct U as [U|(q & _ & U)]; rewrite U; eauto).
        assert (Y : starts_with mark (nl s) = true) by now apply starts_with_app.
        destruct H as [H|[H1 H2]]; [|destruct M as [->| ->]; congruence].
        destruct U as [U|(q & _ & U)].
        + rewrite U, rev_app_distr in H. destruct M as [->| ->]; discriminate H.
        + rewrite U in H. replace (mark ++ q ++ [TAB; NL]) with ((mark ++ q) ++ [TAB; NL]) in H by now rewrite <- app_assoc.
          rewrite rev_app_distr in H. discriminate H. }
    repeat (apply Forall_cons || apply Forall_nil); apply B; try reflexivity; left; reflexivity. }
  eexists _, _. split; [vm_compute; reflexivity|]. split; [vm_compute; reflexivity|]. vm_compute. auto 10.
Qed.
