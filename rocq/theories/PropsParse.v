(** Properties C13-C15, C20-C22, C25-C27: parsing any input. *)
From Coq Require Import String Permutation Sorted.
From Verif Require Import Base QtStr Lev Diff Regex Patterns Parser SpecEdit SpecInline SpecPatch SpecParse
  PRegex PLev PHistory PEditLines PParse PUnified PHeaders PFileHeads PUnifiedDoc PFuel PAnyInput PDefined.
Local Open Scope Z_scope.

(** * C13 *)
Lemma marker_iff l : starts_with (lit "\ No newline") l = true <-> no_newline_marker l.
Proof. apply starts_with_app. Qed.
Lemma not_marker l : ~ no_newline_marker l -> starts_with (lit "\ No newline") l = false.
Proof. rewrite <- marker_iff. apply not_true_is_false. Qed.
Lemma index_of_end x t : ~ In x t -> index_of x (t ++ [x]) = Some (length t).
Proof.
  induction t as [|y t IH]; cbn; intros N; [now rewrite N.eqb_refl|].
  destruct (N.eqb_spec x y) as [->|]; [exfalso; apply N; left; reflexivity|]. rewrite IH; [reflexivity|]. intros I; apply N; right; exact I.
Qed.
Lemma truncate_line t : ~ In NL t -> truncate_at_newline (t ++ [NL]) = t.
Proof.
  intros N. unfold truncate_at_newline. rewrite index_of_end by assumption.
  rewrite firstn_app, firstn_all, Nat.sub_diag. cbn. apply app_nil_r.
Qed.
Lemma clean_folded ls out : folded ls out -> forall done n, exists n', clean_loop done ls n = Ok (rev done ++ out, n').
Proof.
  induction 1 as [|l ls out N F IH|t k ls out N NT K F IH]; intros done n; cbn [clean_loop].
  - exists n. now rewrite app_nil_r.
  - rewrite not_marker by assumption. destruct (IH (l :: done) n) as [n' ->]. exists n'. cbn. now rewrite <- app_assoc.
  - rewrite not_marker by assumption. cbn [clean_loop]. rewrite (proj2 (marker_iff k) K). rewrite truncate_line by assumption.
    edestruct IH as [n' E]. exists n'. etransitivity; [exact E|]. cbn [rev]. now rewrite <- app_assoc.
Qed.
Theorem C13_no_newline_markers_folded :
  forall ls out, folded ls out ->
  (exists n, clean_up_crap ls = Ok (out, n)) /\
  (forall sort o, parse sort ls = Ok o -> po_lines o = out).
Proof.
  intros ls out F. destruct (clean_folded ls out F [] 0) as [n E]. split; [exists n; exact E|].
  intros sort o. unfold parse, clean_up_crap. rewrite E. cbn [bind rev app].
  destruct (base_parse _ _ _) as [[ms b]| |]; try discriminate. cbn [bind]. intros H; injection H as <-. reflexivity.
Qed.
Print Assumptions C13_no_newline_markers_folded.
Lemma marker_dec l : {no_newline_marker l} + {~ no_newline_marker l}.
Proof. destruct (starts_with (lit "\ No newline") l) eqn:E; [left; now apply marker_iff|right; rewrite <- marker_iff; congruence]. Qed.
(** Which lists these are: every marker directly follows a line that is not one and ends in its only
    newline. *)
Theorem C13_which_lists :
  forall ls,
  (forall pre k post, ls = pre ++ k :: post -> no_newline_marker k ->
     exists pre' t, pre = pre' ++ [t ++ [NL]] /\ ~ no_newline_marker (t ++ [NL]) /\ ~ In NL t) ->
  exists out, folded ls out.
Proof.
  intros ls. remember (length ls) as n eqn:EN. assert (L : (length ls <= n)%nat) by lia. clear EN. revert ls L.
  induction n as [|n IH]; intros ls L H.
  { destruct ls; [|cbn in L; lia]. exists []. constructor. }
  destruct ls as [|l ls]; [exists []; constructor|].
  destruct (marker_dec l) as [M|M].
  { destruct (H [] l ls eq_refl M) as (pre' & t & E & _). destruct pre'; discriminate. }
  destruct ls as [|k ls].
  { exists [l]. constructor; [exact M|constructor]. }
  destruct (marker_dec k) as [MK|MK].
  - destruct (H [l] k ls eq_refl MK) as (pre' & t & E & N1 & N2).
    destruct pre' as [|x pre']; [|destruct pre'; discriminate]. cbn in E. injection E as ->.
    assert (exists out, folded ls out) as [out F].
    { apply IH; [cbn in L; lia|]. intros pre k' post -> MK'.
      destruct (H (((t ++ [NL]) :: k :: pre)) k' post eq_refl MK') as (pre2 & t2 & E2 & A & B).
      destruct pre as [|a pre] using rev_ind.
      - exfalso. apply A. replace (t2 ++ [NL]) with k; [exact MK|].
        change [t ++ [NL]; k] with ([t ++ [NL]] ++ [k]) in E2. apply app_inj_tail in E2. apply E2.
      - exists pre, t2. clear IHpre. rewrite !app_comm_cons in E2. apply app_inj_tail in E2 as [_ ->]. auto. }
    exists (t :: out). now constructor.
  - assert (exists out, folded (k :: ls) out) as [out F].
    { apply IH; [cbn in *; lia|]. intros pre k' post E MK'.
      destruct (H (l :: pre) k' post) as (pre2 & t2 & E2 & A & B); [cbn; now rewrite E|exact MK'|].
      destruct pre as [|a pre] using rev_ind.
      - cbn in E. injection E as -> _. contradiction.
      - exists pre, t2. clear IHpre. rewrite app_comm_cons in E2. apply app_inj_tail in E2 as [_ ->]. auto. }
    exists (l :: out). now constructor.
Qed.
Print Assumptions C13_which_lists.
(** The two exceptions. *)
Theorem C13_first_line_marker_undefined :
  forall sort k ls, no_newline_marker k -> exists why, parse sort (k :: ls) = UB why.
Proof.
  intros sort k ls M. eexists. unfold parse, clean_up_crap. cbn [clean_loop]. rewrite (proj2 (marker_iff k) M). reflexivity.
Qed.
Print Assumptions C13_first_line_marker_undefined.
Theorem C13_second_marker_erases_line :
  forall t k1 k2, ~ no_newline_marker (t ++ [NL]) -> ~ In NL t -> no_newline_marker k1 -> no_newline_marker k2 ->
  exists n, clean_up_crap [t ++ [NL]; k1; k2] = Ok ([[]], n).
Proof.
  intros t k1 k2 N NT M1 M2. unfold clean_up_crap. cbn [clean_loop]. rewrite not_marker by assumption.
  rewrite (proj2 (marker_iff k1) M1), (proj2 (marker_iff k2) M2), truncate_line by assumption.
  eexists. unfold truncate_at_newline. replace (index_of NL t) with (@None nat); [reflexivity|].
  symmetry. clear -NT. induction t as [|x t IH]; cbn [index_of]; [reflexivity|].
  destruct (N.eqb_spec NL x) as [<-|]; [exfalso; apply NT; left; reflexivity|]. rewrite IH; [reflexivity|]. intros I; apply NT; right; exact I.
Qed.
Print Assumptions C13_second_marker_erases_line.
Example C13_example :
  folded (map (fun s => lit s ++ [NL])
    ["-a"; "\ No newline at end of file"; "+b"; "\ No newline at end of file"]%string) [lit "-a"; lit "+b"].
Proof.
  cbn [map]. apply fo_marked; [|vm_compute; intuition discriminate|eexists; reflexivity|apply fo_marked; [|vm_compute; intuition discriminate|eexists; reflexivity|constructor]].
  all: rewrite <- marker_iff; vm_compute; discriminate.
Qed.

(** * C14 *)
Definition begins (p : string) (l : str) : Prop := exists x, l = lit p ++ x.
Theorem C14_generator_is_first_tell_tale :
  forall sort ls o, parse sort ls = Ok o ->
  (po_generator o = CVSDiff <->
     exists pre l post, ls = pre ++ l :: post /\ begins "Index: " l /\ Forall (fun x => ~ begins "==== " x) pre) /\
  (po_generator o = Perforce <->
     exists pre l post, ls = pre ++ l :: post /\ begins "==== " l /\ Forall (fun x => ~ begins "Index: " x) pre) /\
  (po_generator o = DiffDiff <-> Forall (fun x => ~ begins "Index: " x /\ ~ begins "==== " x) ls).
Proof.
  intros sort ls o H. assert (E : po_generator o = determine_generator ls).
  { unfold parse in H. destruct (clean_up_crap ls) as [[l n]| |]; try discriminate. cbn [bind] in H.
    destruct (base_parse _ _ _) as [[ms b]| |]; try discriminate. cbn [bind] in H. injection H as <-. reflexivity. }
  rewrite E. clear.
  assert (B : forall p l, starts_with (lit p) l = true <-> begins p l) by (intros; apply starts_with_app).
  assert (B0 : forall p l, starts_with (lit p) l = false <-> ~ begins p l).
  { intros p l. rewrite <- B. destruct (starts_with _ _); intuition congruence. }
  assert (X : forall l, begins "Index: " l -> begins "==== " l -> False).
  { intros l [x ->] [y H]. discriminate. }
  induction ls as [|l ls (I1 & I2 & I3)].
  - cbn. split; [|split]; (split; [try discriminate|]).
    + intros (pre & l & post & E & _). destruct pre; discriminate.
    + intros (pre & l & post & E & _). destruct pre; discriminate.
    + intros _. constructor.
    + reflexivity.
  - cbn [determine_generator]. destruct (starts_with (lit "Index: ") l) eqn:E1.
    + apply B in E1. split; [|split]; split; try discriminate.
      * intros _. exists [], l, ls. auto.
      * reflexivity.
      * intros (pre & l' & post & E & Bl & F). destruct pre as [|a pre].
        { cbn in E. injection E as -> ->. exfalso; eauto. }
        cbn in E. injection E as -> ->. inversion F. contradiction.
      * intros F. inversion F as [|? ? [N _]]. contradiction.
    + apply B0 in E1. destruct (starts_with (lit "==== ") l) eqn:E2.
      * apply B in E2. split; [|split]; split; try discriminate.
        -- intros (pre & l' & post & E & Bl & F). destruct pre as [|a pre].
           { cbn in E. injection E as -> ->. contradiction. }
           cbn in E. injection E as -> ->. inversion F. contradiction.
        -- intros _. exists [], l, ls. auto.
        -- reflexivity.
        -- intros F. inversion F as [|? ? [_ N]]. contradiction.
      * apply B0 in E2. split; [|split].
        -- rewrite I1. split.
           ++ intros (pre & l' & post & -> & Bl & F). exists (l :: pre), l', post. auto.
           ++ intros (pre & l' & post & E & Bl & F). destruct pre as [|a pre]; cbn in E; injection E as -> ->; [contradiction|].
              inversion F. eauto 6.
        -- rewrite I2. split.
           ++ intros (pre & l' & post & -> & Bl & F). exists (l :: pre), l', post. auto.
           ++ intros (pre & l' & post & E & Bl & F). destruct pre as [|a pre]; cbn in E; injection E as -> ->; [contradiction|].
              inversion F. eauto 6.
        -- rewrite I3. split; [intros F; constructor; auto|intros F; inversion F; auto].
Qed.
Print Assumptions C14_generator_is_first_tell_tale.

(** * C15 *)
(** The model of each loop takes as many rounds as there are lines plus one, and never runs out. *)
Theorem C15_parse_terminates : forall sort ls, parse sort ls <> OutOfFuel.
Proof. exact parse_fuel. Qed.
Print Assumptions C15_parse_terminates.

(** * C20-C22, C26: unified diffs *)
Lemma the_models_sort (sort : list dmodel -> list dmodel) l :
  the_models (match sort l with [] => None | _ => Some (sort l) end) = sort l.
Proof. now destruct (sort l). Qed.
Theorem C22_unified_lines_accounted_for :
  forall sort ls o, (forall l, Permutation (sort l) l) -> parse sort ls = Ok o -> po_format o = Unified ->
  exists ms, Permutation (the_models (po_models o)) ms /\
    match po_generator o with
    | Perforce => files_from perforce_start perforce_heading (po_lines o) ms (po_malformed o)
    | _ => files_from unified_start unified_heading (po_lines o) ms (po_malformed o)
    end.
Proof.
  intros sort ls o HP H EF. unfold parse in H. destruct (clean_up_crap ls) as [[l n]| |]; try discriminate. cbn [bind] in H.
  destruct (base_parse _ _ _) as [[ms b]| |] eqn:EB; try discriminate. cbn [bind] in H. injection H as <-.
  cbn [po_generator po_lines po_malformed po_models po_format] in *.
  unfold base_parse in EB. rewrite EF in EB.
  destruct (parse_unified _ l) as [[ms0 b0]| |] eqn:EP; try discriminate. cbn [bind] in EB. injection EB as <- <-.
  unfold parse_unified in EP. destruct (files _ _ _ _ _ _ _) as [[[ms1 b1] r]| |] eqn:EFL; try discriminate. cbn [bind] in EP.
  injection EP as <- <-. apply unified_files_ok in EFL as (new & b & -> & -> & FF). cbn [app orb] in *.
  exists new. rewrite the_models_sort. split; [apply HP|]. destruct (determine_generator ls); exact FF.
Qed.
Print Assumptions C22_unified_lines_accounted_for.
Lemma files_from_models starts heading ls ms b : files_from starts heading ls ms b ->
  Forall (fun m => dm_diffs m <> [] /\ exists body hs, contents m hs /\ hunks_from body hs) ms.
Proof. induction 1; auto. constructor; eauto. Qed.
Lemma hunks_from_typed body hs : hunks_from body hs -> Forall (fun p => Forall well_typed (snd p)) hs.
Proof. induction 1; auto. Qed.
Theorem C20_unified_differences_typed :
  forall sort ls o, (forall l, Permutation (sort l) l) -> parse sort ls = Ok o -> po_format o = Unified ->
  Forall (fun m => dm_diffs m <> [] /\ exists hs, contents m hs /\ Forall (fun p => Forall well_typed (snd p)) hs)
    (the_models (po_models o)).
Proof.
  intros sort ls o HP H EF. destruct (C22_unified_lines_accounted_for sort ls o HP H EF) as (ms & P & FF).
  eapply Permutation_Forall; [symmetry; exact P|].
  assert (F : Forall (fun m => dm_diffs m <> [] /\ exists body hs, contents m hs /\ hunks_from body hs) ms)
    by (destruct (po_generator o); eapply files_from_models; exact FF).
  eapply Forall_impl; [|exact F]. intros m (N & body & hs & C & HF). split; [exact N|].
  exists hs. split; [exact C|]. eapply hunks_from_typed; eauto.
Qed.
Print Assumptions C20_unified_differences_typed.
(** All formats. *)
Theorem C21_hunks_contiguous :
  forall sort ls o, (forall l, Permutation (sort l) l) -> parse sort ls = Ok o ->
  Forall (fun m => dm_diffs m <> [] /\ exists hs, contents m hs /\
     Forall (fun p => contiguous (h_src (fst p)) (h_dst (fst p)) (snd p) /\ Forall pristine (snd p)) hs)
    (the_models (po_models o)).
Proof.
  intros sort ls o HP H. unfold parse in H. destruct (clean_up_crap ls) as [[l n]| |]; try discriminate. cbn [bind] in H.
  destruct (base_parse _ _ _) as [[ms b]| |] eqn:EB; try discriminate. cbn [bind] in H. injection H as <-.
  apply base_parse_tidy in EB; [|exact HP]. eapply Forall_impl; [|exact EB].
  intros m [(hs & C & T) N]. split; [exact N|]. exists hs. split; [exact C|].
  eapply Forall_impl; [|exact T]. intros p (_ & A & B). auto.
Qed.
Print Assumptions C21_hunks_contiguous.
(** The same with sourceLineEnd() and destinationLineEnd(): where a difference of a hunk ends on either side, the next one starts;
    the first starts where the hunk does. *)
Theorem C21_ends_meet :
  forall sort ls o, (forall l, Permutation (sort l) l) -> parse sort ls = Ok o ->
  Forall (fun m => exists hs, contents m hs /\ Forall (fun p =>
      (forall d ds, snd p = d :: ds -> d_src d = h_src (fst p) /\ d_dst d = h_dst (fst p)) /\
      forall before d d' after, snd p = before ++ d :: d' :: after -> d_src d' = source_line_end d /\ d_dst d' = destination_line_end d) hs)
    (the_models (po_models o)).
Proof.
  intros sort ls o HP H. eapply Forall_impl; [|exact (C21_hunks_contiguous sort ls o HP H)]. intros m (_ & hs & C & F). exists hs. split; [exact C|].
  eapply Forall_impl; [|exact F]. intros p [K _]. split.
  - intros d ds E. rewrite E in K. destruct K as (A & B & _). auto.
  - intros before. generalize (h_src (fst p)) (h_dst (fst p)) (snd p) K. clear. induction before as [|x before IH]; intros a b ds K d d' after ->.
    + destruct K as (A & B & _ & A' & B' & _). unfold source_line_end, destination_line_end, slc, dlc. unfold count in *. lia.
    + destruct K as (_ & _ & _ & K). cbn [app] in K. exact (IH _ _ _ K d d' after eq_refl).
Qed.
Print Assumptions C21_ends_meet.
Definition sample : list str := map (fun s => lit s ++ [NL])
  ["garbage"; "--- a/f.c	2020"; "+++ b/f.c	2021"; "@@ -3,3 +3,4 @@ main"; " x"; "-y"; "+y1"; "+y2"; " z"; "tail";
   "@@ -9 +9 @@"]%string.
Example C22_example :
  match parse (fun l => l) sample with
  | Ok o => po_format o = Unified /\ po_malformed o = true /\
            map (fun m => (dm_source m, dm_sts m, map d_type (dm_store m), length (dm_diffs m))) (the_models (po_models o)) =
              [(lit "a/f.c", lit "2020", [Unchanged; Change; Unchanged], 1%nat)]
  | _ => False
  end.
Proof. vm_compute. auto. Qed.

(** C26: refuted as stated. The hunk of the second file is missed and nothing is reported. *)
Definition missed : list str := map (fun s => lit s ++ [NL])
  ["--- a"; "+++ a"; "@@ -1 +1 @@"; "-x"; "+y"; "--- b"; "oops"; "+++ b"; "@@ -1 +1 @@"; "-u"; "+v"]%string.
Theorem C26_malformed_reported_refuted :
  exists ls o, parse (fun l => l) ls = Ok o /\ po_malformed o = false /\
    exists u v, In (lit "-u" ++ [NL]) ls /\ In (lit "+v" ++ [NL]) ls /\ u = lit "u" ++ [NL] /\ v = lit "v" ++ [NL] /\
      forall m d, In m (the_models (po_models o)) -> In d (dm_store m) -> ~ In u (lines_of (d_slines d)) /\ ~ In v (lines_of (d_dlines d)).
Proof.
  exists missed. destruct (parse (fun l => l) missed) as [o| |] eqn:E; [|vm_compute in E; discriminate E|vm_compute in E; discriminate E].
  exists o. split; [reflexivity|]. vm_compute in E. injection E as <-. split; [reflexivity|].
  eexists _, _. split; [|split; [|split; [reflexivity|split; [reflexivity|]]]].
  - vm_compute. tauto.
  - vm_compute. tauto.
  - intros m d [<-|[]] [<-|[]]. vm_compute. intuition congruence.
Qed.
Print Assumptions C26_malformed_reported_refuted.

(** * C25 *)
Lemma model_less_order coll : collation coll -> strict_weak_order (model_less coll).
Proof.
  intros [S T E]. 
  assert (R : forall a, coll a a = Eq). { intros a. specialize (S a a). destruct (coll a a); auto; discriminate. }
  assert (EqR : forall a b, coll a b = Eq -> forall c, coll c a = coll c b).
  { intros a b H c. rewrite (S a c), (S b c), (E a b c H). reflexivity. }
  assert (L : forall a b, model_less coll a b = true <-> (coll (dm_spath a) (dm_spath b) = Lt \/
     (coll (dm_spath a) (dm_spath b) = Eq /\ coll (dm_sfile a) (dm_sfile b) = Lt))).
  { intros a b. unfold model_less, compare_source. destruct (coll (dm_spath a) (dm_spath b));
      [destruct (coll (dm_sfile a) (dm_sfile b))| |]; intuition congruence. }
  assert (I : forall a b, model_less coll a b = false -> model_less coll b a = false ->
     coll (dm_spath a) (dm_spath b) = Eq /\ coll (dm_sfile a) (dm_sfile b) = Eq).
  { intros a b H1 H2. unfold model_less, compare_source in *. rewrite (S (dm_spath a)), (S (dm_sfile a)) in H2.
    destruct (coll (dm_spath a) (dm_spath b)); cbn in *; try discriminate.
    destruct (coll (dm_sfile a) (dm_sfile b)); cbn in *; try discriminate. auto. }
  assert (Q : forall a b, coll (dm_spath a) (dm_spath b) = Eq -> coll (dm_sfile a) (dm_sfile b) = Eq ->
     model_less coll a b = false).
  { intros a b H1 H2. unfold model_less, compare_source. now rewrite H1, H2. }
  split.
  - intros a. now apply Q.
  - intros a b c H1 H2. apply L in H1. apply L in H2. apply L.
    destruct H1 as [H1|[H1 H1']], H2 as [H2|[H2 H2']].
    + left. eapply T; eauto.
    + left. rewrite <- (EqR _ _ H2). exact H1.
    + left. rewrite (E _ _ _ H1). exact H2.
    + right. split; [rewrite (E _ _ _ H1); exact H2|eapply T; eauto].
  - intros a b c H1 H2 H3 H4. destruct (I _ _ H1 H2) as [A B]. destruct (I _ _ H3 H4) as [C D].
    split; apply Q.
    + rewrite (E _ _ _ A). exact C.
    + rewrite (E _ _ _ B). exact D.
    + rewrite (S (dm_spath a)), (E _ _ _ A), C. reflexivity.
    + rewrite (S (dm_sfile a)), (E _ _ _ B), D. reflexivity.
Qed.
Theorem C25_models_sorted :
  forall coll sort ls o, collation coll -> std_sort (model_less coll) sort -> parse sort ls = Ok o ->
  StronglySorted (in_order coll) (the_models (po_models o)) /\
  exists o0, parse (fun l => l) ls = Ok o0 /\ Permutation (the_models (po_models o)) (the_models (po_models o0)) /\
    po_malformed o = po_malformed o0 /\ po_format o = po_format o0 /\ po_generator o = po_generator o0.
Proof.
  intros coll sort ls o HC HS H. specialize (HS (model_less_order coll HC)).
  assert (K : forall l, StronglySorted (in_order coll) (sort l)).
  { intros l. destruct (HS l) as [_ SS]. revert SS. generalize (sort l). intros k. induction 1 as [|a k SS IH F]; constructor; [exact IH|].
    eapply Forall_impl; [|exact F]. intros b Hb. unfold model_less, compare_source in Hb. unfold in_order.
    rewrite (co_sym _ HC (dm_spath a)), (co_sym _ HC (dm_sfile a)) in Hb.
    destruct (coll (dm_spath a) (dm_spath b)); cbn in *; [|auto|discriminate].
    right. split; [reflexivity|]. destruct (coll (dm_sfile a) (dm_sfile b)); cbn in *; discriminate. }
  unfold parse in *. destruct (clean_up_crap ls) as [[l n]| |]; try discriminate. cbn [bind] in *.
  unfold base_parse in *. set (g := determine_generator ls) in *.
  assert (G : forall r : res (list dmodel * bool),
    (do x <- (do x <- r; let '(ms, bad) := x in Ok (match sort ms with [] => None | _ => Some (sort ms) end, bad));
     let '(ms, bad) := x in Ok (mk_po g (determine_format g l) l ms bad)) = Ok o ->
    StronglySorted (in_order coll) (the_models (po_models o)) /\
    exists o0, (do x <- (do x <- r; let '(ms, bad) := x in Ok (match ms with [] => None | _ => Some ms end, bad));
     let '(ms, bad) := x in Ok (mk_po g (determine_format g l) l ms bad)) = Ok o0 /\
    Permutation (the_models (po_models o)) (the_models (po_models o0)) /\
    po_malformed o = po_malformed o0 /\ po_format o = po_format o0 /\ po_generator o = po_generator o0).
  { intros [[ms b]| |]; cbn [bind]; try discriminate. intros E; injection E as <-. cbn [po_models po_malformed po_format po_generator].
    rewrite the_models_sort. split; [apply K|]. eexists. split; [reflexivity|]. cbn [po_models po_malformed po_format po_generator].
    split; [|auto]. replace (the_models (match ms with [] => None | _ => Some ms end)) with ms by now destruct ms. apply HS. }
  assert (N : forall f, f = determine_format g l -> (do x <- Ok (@None (list dmodel), false); let '(ms, bad) := x in Ok (mk_po g f l ms bad)) = Ok o ->
    StronglySorted (in_order coll) (the_models (po_models o)) /\
    exists o0, (do x <- Ok (@None (list dmodel), false); let '(ms, bad) := x in Ok (mk_po g f l ms bad)) = Ok o0 /\
    Permutation (the_models (po_models o)) (the_models (po_models o0)) /\
    po_malformed o = po_malformed o0 /\ po_format o = po_format o0 /\ po_generator o = po_generator o0).
  { intros f _ E. cbn [bind] in E. injection E as <-. split; [constructor|]. eexists. split; [reflexivity|]. repeat split; constructor. }
  remember (determine_format g l) as f eqn:EFo. destruct f; try (apply N; auto); apply G; exact H.
Qed.
Print Assumptions C25_models_sorted.
(** A collation and a sort that meet the hypotheses. *)
Fixpoint lex (a b : str) : comparison :=
  match a, b with
  | [], [] => Eq | [], _ :: _ => Lt | _ :: _, [] => Gt
  | x :: a', y :: b' => match N.compare x y with Eq => lex a' b' | c => c end
  end.
Fixpoint insert_sorted {A} (lt : A -> A -> bool) (x : A) (l : list A) : list A :=
  match l with
  | [] => [x]
  | y :: l' => if lt y x then y :: insert_sorted lt x l' else x :: l
  end.
Definition insertion_sort {A} (lt : A -> A -> bool) (l : list A) : list A := fold_right (insert_sorted lt) [] l.
Lemma insertion_sort_ok {A} (lt : A -> A -> bool) : std_sort lt (insertion_sort lt).
Proof.
  intros [I T C] l.
  assert (AS : forall a b, lt a b = true -> lt b a = false).
  { intros a b H. destruct (lt b a) eqn:E; [|reflexivity]. rewrite <- (I a). symmetry. exact (T _ _ _ H E). }
  assert (NT : forall a b c, lt b a = false -> lt c b = false -> lt c a = false).
  { intros a b c H1 H2. destruct (lt c a) eqn:E; [|reflexivity]. exfalso.
    destruct (lt a b) eqn:E2; [rewrite (T _ _ _ E E2) in H2; discriminate|].
    destruct (lt b c) eqn:E3; [rewrite (T _ _ _ E3 E) in H1; discriminate|].
    destruct (C a b c E2 H1 E3 H2). congruence. }
  induction l as [|x l [P S]]; cbn; [split; constructor|]. fold (insertion_sort lt l). split.
  - rewrite <- P at 2. generalize (insertion_sort lt l). intros k. induction k as [|y k IH]; cbn; [reflexivity|].
    destruct (lt y x); [|reflexivity]. rewrite IH. constructor.
  - clear P. revert S. generalize (insertion_sort lt l). intros k. induction 1 as [|y k SS IH F]; cbn; [repeat constructor|].
    destruct (lt y x) eqn:E.
    + constructor; [exact IH|]. assert (PI : Permutation (insert_sorted lt x k) (x :: k)).
      { clear. induction k as [|z k IH]; cbn; [reflexivity|]. destruct (lt z x); [|reflexivity]. rewrite IH. constructor. }
      eapply Permutation_Forall; [symmetry; exact PI|]. constructor; [now apply AS|exact F].
    + constructor; [constructor; assumption|]. constructor; [exact E|].
      eapply Forall_impl; [|exact F]. intros z Hz. eapply NT; eauto.
Qed.
Lemma lex_collation : collation lex.
Proof.
  split.
  - induction a as [|x a IH]; intros [|y b]; cbn; auto. rewrite (N.compare_antisym x y).
    destruct (N.compare x y); cbn; auto.
  - induction a as [|x a IH]; intros [|y b] [|z c]; cbn; auto; try discriminate.
    destruct (N.compare_spec x y), (N.compare_spec y z); try discriminate; intros; subst;
      destruct (N.compare_spec x z) || destruct (N.compare_spec z z) || idtac; try lia; eauto; try discriminate.
    all: try (rewrite N.compare_refl); eauto.
    all: try (rewrite (proj2 (N.compare_lt_iff _ _))); auto; lia.
  - assert (EQ : forall a b, lex a b = Eq -> a = b).
    { induction a as [|x a IH]; intros [|y b]; cbn; auto; try discriminate.
      destruct (N.compare_spec x y); try discriminate. intros H1. f_equal; auto. }
    intros a b c H. apply EQ in H. now subst.
Qed.
Example C25_example :
  collation lex /\ std_sort (model_less lex) (insertion_sort (model_less lex)) /\
  match parse (insertion_sort (model_less lex)) (map (fun s => lit s ++ [NL])
    ["--- b/x"; "+++ b/x"; "@@ -1 +1 @@"; "-x"; "+y"; "--- a/z"; "+++ a/z"; "@@ -1 +1 @@"; "-u"; "+v";
     "--- a/q"; "+++ a/q"; "@@ -1 +1 @@"; "-u"; "+v"]%string) with
  | Ok o => map dm_source (the_models (po_models o)) = [lit "a/q"; lit "a/z"; lit "b/x"] /\ po_malformed o = false
  | _ => False end.
Proof. split; [exact lex_collation|]. split; [apply insertion_sort_ok|]. vm_compute. auto. Qed.

(** * C27: refuted as stated *)
Definition crash_inputs : list (list string) :=
  [["\ No newline at end of file"];
   ["--- a	x"];
   ["--- a"; "+++ a"; "@@ -1,3 +1,3 @@"; " x"; "-y"; "+z"; ""];
   ["*** a	x"];
   ["*** a"; "--- b"; "***************"; "*** 1,2 ****"; "! x"]]%string.
(** Each line is newline-terminated, except that the empty line of the third input is really empty (it
    arises from a newline followed by a marker line). *)
Definition crash_lines (l : list string) : list str :=
  map (fun s => match lit s with [] => [] | _ => lit s ++ [NL] end) l.
Theorem C27_parse_defined_refuted :
  Forall (fun l => exists why, parse (fun m => m) (crash_lines l) = UB why) crash_inputs.
Proof. repeat (apply Forall_cons || apply Forall_nil); eexists; vm_compute; reflexivity. Qed.
Print Assumptions C27_parse_defined_refuted.
Theorem C27_parse_defined_on_safe_input_partial :
  forall sort ls out, folded ls out -> safe out -> exists o, parse sort ls = Ok o.
Proof.
  intros sort ls out F S. pose proof (C15_parse_terminates sort ls) as T.
  destruct (C13_no_newline_markers_folded ls out F) as [(n & E) _].
  assert (D : ~ is_ub (parse sort ls)).
  { unfold parse. rewrite E. cbn [bind]. apply bind_def; [now apply base_parse_defined|]. intros [ms b] _. auto. }
  destruct (parse sort ls) as [o|why|]; [eauto| |congruence]. exfalso. apply D. exact I.
Qed.
Print Assumptions C27_parse_defined_on_safe_input_partial.
Example C27_example :
  folded sample sample /\ safe sample.
Proof.
  split.
  - repeat (apply fo_keep; [rewrite <- marker_iff; vm_compute; discriminate|]). constructor.
  - split.
    + repeat (apply Forall_cons; [split; [discriminate|vm_compute; reflexivity]|]). constructor.
    + intros pre x H. apply (f_equal (@rev _)) in H. rewrite rev_app_distr in H. vm_compute in H. discriminate.
    + intros pre x post H. exfalso. assert (I : In (lit "*** " ++ x) sample) by (rewrite H; apply in_or_app; right; left; reflexivity).
      vm_compute in I. repeat destruct I as [I|I]; try discriminate. exact I.
Qed.
