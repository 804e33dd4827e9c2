(** C27: exactly the texts on which reading a diff is undefined. *)
From Coq Require Import String Permutation.
From Verif Require Import Base QtStr Lev Diff Regex Patterns Parser SpecEdit SpecInline SpecPatch SpecParse SpecNormal SpecLines SpecCrash
  PRegex PStar PLevTable PLev PHistory PEditLines PParse PUnified PHeaders PFileHeads PUnifiedDoc PFuel PDefined PAnyInput PNormal PLines PLineHeads PLineChunks PLineSame PLineUnified PropsParse PropsLines PCrash PCrashContext.
From Verif Require PropsFormat.
Local Open Scope Z_scope.

(** * Missing newlines *)
Lemma cut_truncate l t : cut l t <-> truncate_at_newline l = t.
Proof.
  assert (IX : forall t x, ~ In NL t -> index_of NL (t ++ NL :: x) = Some (length t)).
  { clear. induction t as [|c t0 IH]; intros x N; cbn [app index_of]; [reflexivity|]. destruct (N.eqb_spec NL c) as [<-|]; [exfalso; apply N; left; reflexivity|].
    rewrite IH; [reflexivity|]. intros I. apply N. right. exact I. }
  assert (IN : forall t, ~ In NL t -> index_of NL t = None).
  { clear. induction t as [|c t0 IH]; intros N; cbn [index_of]; [reflexivity|]. destruct (N.eqb_spec NL c) as [<-|]; [exfalso; apply N; left; reflexivity|].
    rewrite IH; [reflexivity|]. intros I. apply N. right. exact I. }
  unfold truncate_at_newline. split.
  - intros [t0 x N|t0 N]; [rewrite IX by exact N|rewrite IN by exact N; reflexivity]. rewrite firstn_app, Nat.sub_diag, firstn_all. cbn. now rewrite app_nil_r.
  - intros <-. destruct (in_dec N.eq_dec NL l) as [I|N]; [|rewrite IN by exact N; now apply cut_none].
    assert (S : exists t x, l = t ++ NL :: x /\ ~ In NL t).
    { clear IX IN. induction l as [|c l IH]; [destruct I|]. destruct (N.eq_dec c NL) as [->|NE]; [exists [], l; split; [reflexivity|intros []]|].
      destruct I as [->|I]; [contradiction|]. destruct (IH I) as (t & x & -> & K). exists (c :: t), x. split; [reflexivity|]. intros [->|J]; auto. }
    destruct S as (t & x & -> & K). rewrite IX by exact K. rewrite firstn_app, Nat.sub_diag, firstn_all. cbn [firstn]. rewrite app_nil_r. now apply cut_newline.
Qed.
Lemma clean_markers ks : Forall no_newline_marker ks -> forall p t, cuts (length ks) p t -> forall ls done nol,
  clean_loop (p :: done) (ks ++ ls) nol = clean_loop (t :: done) ls (nol + Z.of_nat (length ks)).
Proof.
  induction 1 as [|k ks M F IH]; intros p t C ls done nol.
  - inversion C; subst. cbn [app length]. now rewrite Z.add_0_r.
  - cbn [length] in C. inversion C as [|n l u v C1 C2]; subst. cbn [app clean_loop]. rewrite (proj2 (marker_iff k) M). apply cut_truncate in C1 as ->.
    rewrite (IH _ _ C2). f_equal. cbn [length]. lia.
Qed.
Lemma clean_cleaned ls out : cleaned ls out -> forall done nol, exists n, clean_loop done ls nol = Ok (rev done ++ out, n).
Proof.
  induction 1 as [|l ks ls t out M F NM C CL IH]; intros done nol.
  - cbn. rewrite app_nil_r. eauto.
  - cbn [clean_loop]. destruct (starts_with (lit "\ No newline") l) eqn:E; [apply marker_iff in E; contradiction|].
    rewrite (clean_markers ks F l t C). destruct (IH (t :: done) (nol + Z.of_nat (length ks))) as (n & ->). exists n. cbn [rev]. now rewrite <- app_assoc.
Qed.
Lemma cuts_some n : forall l, exists t, cuts n l t.
Proof.
  induction n as [|n IH]; intros l; [exists l; constructor|]. destruct (IH (truncate_at_newline l)) as [t C]. exists t. econstructor; [|exact C]. now apply cut_truncate.
Qed.
Lemma split_markers ls : exists ks rest, ls = ks ++ rest /\ Forall no_newline_marker ks /\ (forall k ls', rest = k :: ls' -> ~ no_newline_marker k).
Proof.
  induction ls as [|l ls IH]; [exists [], []; repeat split; [constructor|discriminate]|]. destruct (marker_dec l) as [M|M].
  - destruct IH as (ks & rest & -> & F & N). exists (l :: ks), rest. repeat split; [constructor; assumption|exact N].
  - exists [], (l :: ls). repeat split; [constructor|]. intros k ls' E. injection E as <- _. exact M.
Qed.
Lemma cleaned_some n : forall ls, (length ls <= n)%nat -> (forall k ls', ls = k :: ls' -> ~ no_newline_marker k) -> exists out, cleaned ls out.
Proof.
  induction n as [|n IH]; intros ls L N; (destruct ls as [|l ls]; [exists []; constructor|cbn in L]); [lia|].
  destruct (split_markers ls) as (ks & rest & -> & F & NR). rewrite app_length in L. destruct (IH rest) as [out C]; [lia|exact NR|].
  destruct (cuts_some (length ks) l) as [t T]. exists (t :: out). apply cl_line; auto. eapply N. reflexivity.
Qed.
(** C13 for every text that does not begin with a marker: how the lines are changed. *)
Theorem C13_every_list :
  forall ls, (forall k ls', ls = k :: ls' -> ~ no_newline_marker k) ->
  exists out, cleaned ls out /\ (forall out', cleaned ls out' -> out' = out) /\ forall sort o, parse sort ls = Ok o -> po_lines o = out.
Proof.
  intros ls N. destruct (cleaned_some _ ls (le_n _) N) as [out C]. exists out. split; [exact C|]. destruct (clean_cleaned _ _ C [] 0) as [n E]. split.
  - intros out' C'. destruct (clean_cleaned _ _ C' [] 0) as [n' E']. rewrite E in E'. cbn in E'. injection E' as <- _. reflexivity.
  - intros sort o. unfold parse, clean_up_crap. rewrite E. cbn [bind rev app].
    destruct (base_parse _ _ _) as [[ms b]| |]; try discriminate. cbn [bind]. intros H; injection H as <-. reflexivity.
Qed.
Print Assumptions C13_every_list.
(** Two markers after one line empty it; a marker after a line with two newlines drops what follows the first. *)
Example C13_every_list_example :
  cleaned [lit "-a" ++ [NL]; lit "\ No newline at end of file" ++ [NL]; lit "\ No newline"; lit "+b" ++ NL :: lit "c" ++ [NL]; lit "\ No newline"; lit "d"] [[]; lit "+b"; lit "d"].
Proof.
  assert (NM : forall l, starts_with (lit "\ No newline") l = false -> ~ no_newline_marker l) by (intros l E M; apply marker_iff in M; congruence).
  apply (cl_line _ [lit "\ No newline at end of file" ++ [NL]; lit "\ No newline"]).
  - apply NM. reflexivity.
  - repeat (apply Forall_cons; [apply marker_iff; reflexivity|]). apply Forall_nil.
  - intros k ls' E. injection E as E _. rewrite <- E. apply NM. reflexivity.
  - apply (ct_more _ _ (lit "-a")); [apply cut_truncate; reflexivity|]. apply (ct_more _ _ []); [apply cut_truncate; reflexivity|constructor].
  - apply (cl_line _ [lit "\ No newline"]).
    + apply NM. reflexivity.
    + repeat (apply Forall_cons; [apply marker_iff; reflexivity|]). apply Forall_nil.
    + intros k ls' E. injection E as E _. rewrite <- E. apply NM. reflexivity.
    + apply (ct_more _ _ (lit "+b")); [apply cut_truncate; reflexivity|constructor].
    + apply (cl_line _ [] []); [apply NM; reflexivity|apply Forall_nil|discriminate|constructor|constructor].
Qed.

(** * Program and format *)
Lemma from_iff ls g : from ls g <-> determine_generator ls = g.
Proof.
  assert (B : forall p l, starts_with (lit p) l = true <-> exists x, l = lit p ++ x) by (intros; apply starts_with_app).
  assert (B0 : forall p l, starts_with (lit p) l = false <-> ~ exists x, l = lit p ++ x).
  { intros p l. rewrite <- B. destruct (starts_with _ _); intuition congruence. }
  assert (NB : forall l, (exists x, l = lit "Index: " ++ x) -> ~ exists x, l = lit "==== " ++ x).
  { intros l (x & ->) (y & E). discriminate E. }
  split.
  - destruct g; unfold from; cbv zeta.
    + intros (pre & l & post & -> & H & F). induction F as [|x pre N F IH]; cbn [app determine_generator].
      * rewrite (proj2 (B _ l) H). reflexivity.
      * apply B0 in N. rewrite N. destruct (starts_with (lit "Index: ") x); [reflexivity|exact IH].
    + induction 1 as [|x ls [N1 N2] F IH]; cbn [determine_generator]; [reflexivity|]. apply B0 in N1. apply B0 in N2. rewrite N1, N2. exact IH.
    + intros (pre & l & post & -> & H & F). induction F as [|x pre N F IH]; cbn [app determine_generator].
      * rewrite (proj2 (B _ l) H). destruct (starts_with (lit "Index: ") l) eqn:E; [|reflexivity]. apply B in E. destruct (NB _ E H).
      * apply B0 in N. rewrite N. destruct (starts_with (lit "==== ") x); [reflexivity|exact IH].
  - intros <-. induction ls as [|l ls IH]; cbn [determine_generator]; [constructor|].
    destruct (starts_with (lit "Index: ") l) eqn:E1.
    { apply B in E1. exists [], l, ls. repeat split; [exact E1|constructor]. }
    destruct (starts_with (lit "==== ") l) eqn:E2.
    { apply B in E2. exists [], l, ls. repeat split; [exact E2|constructor]. }
    apply B0 in E1. apply B0 in E2. destruct (determine_generator ls); unfold from in *; cbv zeta in *.
    + destruct IH as (pre & x & post & -> & H & F). exists (l :: pre), x, post. repeat split; [exact H|constructor; assumption].
    + constructor; [split; assumption|exact IH].
    + destruct IH as (pre & x & post & -> & H & F). exists (l :: pre), x, post. repeat split; [exact H|constructor; assumption].
Qed.
Lemma told_iff g ls f : f <> UnknownFormat -> told g ls f <-> determine_format g ls = f.
Proof.
  intros NU. split.
  - intros (before & l & after & -> & T & N). induction before as [|x before IH]; cbn [app determine_format].
    + apply PropsFormat.line_tells in T. now rewrite T.
    + destruct (line_format g x) as [f'|] eqn:E; [apply PropsFormat.line_tells in E; destruct (N x f' (or_introl eq_refl) E)|]. apply IH. intros; apply N. now right.
  - intros <-. induction ls as [|l ls IH]; cbn [determine_format] in *; [contradiction|]. destruct (line_format g l) as [f|] eqn:E.
    + exists [], l, ls. repeat split; [now apply PropsFormat.line_tells|now apply PropsFormat.line_tells|intros ? ? []].
    + destruct (IH NU) as (b & x & a & -> & T & N). exists (l :: b), x, a. split; [reflexivity|]. split; [exact T|]. intros l' f' [<-|I]; [|now apply N].
      intros Q. apply PropsFormat.line_tells in Q. congruence.
Qed.

(** * Files *)
Section Files.
Context (head : list str -> res (option dmodel * list str)) (hunks : list str -> dmodel -> res (dmodel * list str)) (header : re)
  (starts alone : str -> Prop) (heading : list str -> dmodel -> Prop)
  (reading : list str -> list (hunk * list difference) -> list str -> Prop) (crash : list str -> Prop).
Definition well_read : Prop :=
  (forall ls m rest, head ls = Ok (Some m, rest) -> head_found starts heading ls m rest) /\
  (forall ls rest, head ls = Ok (None, rest) -> head_missing starts heading ls) /\
  (forall ls, (exists why, head ls = UB why) <-> exists skip l, ls = skip ++ [l] /\ Forall (fun l => ~ starts l) skip /\ starts l /\ alone l) /\
  (forall hd m, heading hd m -> exists l tl, hd = l :: tl /\ starts l) /\
  (forall hd m hd' m' x x', heading hd m -> heading hd' m' -> hd ++ x = hd' ++ x' -> hd = hd') /\
  (forall ls m m' rest, contents m [] -> hunks ls m = Ok (m', rest) -> exists new, reading ls new rest) /\
  (forall ls hs rest hs' rest', reading ls hs rest -> reading ls hs' rest' -> rest = rest') /\
  (forall ls m, (exists why, hunks ls m = UB why) -> crash ls) /\
  (forall ls m r, crash ls -> hunks ls m <> Ok r).
Lemma files_cases : well_read -> forall fuel ls ms bad, (exists why, files head hunks header fuel ls ms bad = UB why) ->
  files_crash starts alone heading reading crash ls.
Proof.
  intros (HF & HM & HA & HS & HD & HR & RD & KC & KS). induction fuel as [|fuel IH]; intros ls ms bad [why H]; [discriminate|]. cbn [files] in H.
  destruct (head ls) as [[[m|] ls1]|w|] eqn:E; cbn [bind] in H; try discriminate.
  - apply HF in E as (skip & hd & -> & FS & HH & CT). destruct (hunks ls1 m) as [[m2 ls2]|w|] eqn:EK; cbn [bind] in H; try discriminate.
    + destruct (HR _ _ _ _ CT EK) as [new R]. eapply fc_later; eauto.
    + eapply fc_here; eauto.
  - destruct (proj1 (HA ls) (ex_intro _ w E)) as (skip & l & -> & F & S & A). now apply fc_alone.
Qed.
Lemma head_here : well_read -> forall skip hd m body, Forall (fun l => ~ starts l) skip -> heading hd m ->
  forall r, head (skip ++ hd ++ body) = Ok r -> exists m', r = (Some m', body) /\ contents m' [].
Proof.
  intros (HF & HM & HA & HS & HD & _) skip hd m body F H [[m'|] rest] E.
  - apply HF in E as (skip' & hd' & E & F' & H' & CT). destruct (HS _ _ H) as (l & tl & -> & S). destruct (HS _ _ H') as (l' & tl' & -> & S').
    pose proof E as E0. cbn [app] in E. apply (first_start starts) in E as (<- & <- & E); auto. apply app_inv_head in E0. pose proof (HD _ _ _ _ _ _ H H' E0) as X.
    injection X as <-. apply app_inv_head in E as <-. eauto.
  - exfalso. apply HM in E. destruct (HS _ _ H) as (l & tl & -> & S). destruct E as [E|(skip' & l' & rest' & E & F' & S' & K)].
    + rewrite Forall_forall in E. apply (E l); [|exact S]. apply in_or_app. right. left. reflexivity.
    + cbn [app] in E. apply (first_start starts) in E as (<- & <- & E); auto. apply (K (l :: tl) body m); [|exact H]. cbn [app]. now rewrite E.
Qed.
Lemma files_sound : well_read -> forall ls, files_crash starts alone heading reading crash ls -> forall fuel ms bad r, files head hunks header fuel ls ms bad <> Ok r.
Proof.
  intros W. pose proof W as (HF & HM & HA & HS & HD & HR & RD & KC & KS).
  induction 1 as [skip l F S A|skip hd m body F H C|skip hd m body hs ls F H R X IH]; intros [|fuel] ms bad r E; try discriminate; cbn [files] in E.
  - destruct (proj2 (HA (skip ++ [l]))) as (w & E0); [eauto 8|]. rewrite E0 in E. discriminate.
  - destruct (head _) as [p|w|] eqn:E0; cbn [bind] in E; try discriminate. destruct (head_here W _ _ _ _ F H _ E0) as (m' & -> & CT).
    destruct (hunks body m') as [q|w|] eqn:EK; cbn [bind] in E; try discriminate. exact (KS _ _ _ C EK).
  - destruct (head _) as [p|w|] eqn:E0; cbn [bind] in E; try discriminate. destruct (head_here W _ _ _ _ F H _ E0) as (m' & -> & CT).
    destruct (hunks body m') as [[m2 ls2]|w|] eqn:EK; cbn [bind] in E; try discriminate. destruct (HR _ _ _ _ CT EK) as [new R'].
    rewrite (RD _ _ _ _ _ R' R) in E. eapply IH; exact E.
Qed.
End Files.

Lemma unified_alone ls : (exists why, unified_diff_header ls = UB why) <-> exists skip l, ls = skip ++ [l] /\ Forall (fun l => ~ unified_start l) skip /\ unified_start l /\ always l.
Proof.
  induction ls as [|l ls IH]; cbn [unified_diff_header].
  - split; [intros [w X]; discriminate|]. intros ([|? ?] & ? & X & _); discriminate X.
  - pose proof (unified_starts l) as U. unfold has_match in U. destruct (full_match unified_header1 l) as [c|].
    + assert (S : unified_start l) by (apply U; reflexivity). destruct ls as [|l2 ls].
      * split; [|eauto]. intros _. exists [], l. repeat split; auto.
      * split.
        -- destruct (full_match unified_header2 l2); intros [w X]; discriminate.
        -- intros (skip & x & E & F & _). destruct skip as [|y skip]; [discriminate E|]. injection E as <- _. inversion F; subst. contradiction.
    + assert (S : ~ unified_start l) by (intros X; apply U in X; discriminate). rewrite IH. split.
      * intros (skip & x & -> & F & SX & A). exists (l :: skip), x. repeat split; auto.
      * intros ([|y skip] & x & E & F & SX & A); injection E as <- E; [contradiction|]. inversion F; subst. eauto 8.
Qed.
Lemma context_alone cvs ls : (exists why, context_diff_header (xh1 cvs) (xh2 cvs) ls = UB why) <-> exists skip l, ls = skip ++ [l] /\ Forall (fun l => ~ xstarts cvs l) skip /\ xstarts cvs l /\ always l.
Proof.
  induction ls as [|l ls IH]; cbn [context_diff_header].
  - split; [intros [w X]; discriminate|]. intros ([|? ?] & ? & X & _); discriminate X.
  - pose proof (xstarts_match cvs l) as U. unfold has_match in U. destruct (full_match (xh1 cvs) l) as [c|].
    + assert (S : xstarts cvs l) by (apply U; reflexivity). destruct ls as [|l2 ls].
      * split; [|eauto]. intros _. exists [], l. repeat split; auto.
      * split.
        -- destruct (full_match (xh2 cvs) l2); intros [w X]; discriminate.
        -- intros (skip & x & E & F & _). destruct skip as [|y skip]; [discriminate E|]. injection E as <- _. inversion F; subst. contradiction.
    + assert (S : ~ xstarts cvs l) by (intros X; apply U in X; discriminate). rewrite IH. split.
      * intros (skip & x & -> & F & SX & A). exists (l :: skip), x. repeat split; auto.
      * intros ([|y skip] & x & E & F & SX & A); injection E as <- E; [contradiction|]. inversion F; subst. eauto 8.
Qed.
Lemma perforce_alone ls : (exists why, Ok (perforce_diff_header ls) = UB why) <-> exists skip l, ls = skip ++ [l] /\ Forall (fun l => ~ perforce_start l) skip /\ perforce_start l /\ never l.
Proof. split; [intros [w X]; discriminate|]. intros (? & ? & _ & _ & _ & []). Qed.
Lemma read_patches ls m m' rest : contents m [] -> hunk_fuel unified_hunks ls m = Ok (m', rest) -> exists new, patches ls new rest.
Proof. intros C H. destruct (patches_hunks _ _ _ _ C H) as (new & R & _). eauto. Qed.
Lemma read_chunks ls m m' rest : contents m [] -> hunk_fuel context_hunks ls m = Ok (m', rest) -> exists new, chunks ls new rest.
Proof. intros C H. destruct (chunks_hunks _ _ _ _ C H) as (new & R & _). eauto. Qed.
Lemma unified_well g : exists starts alone heading, unified_crash g = files_crash starts alone heading patches patches_crash /\
  well_read (unified_head_of g) (hunk_fuel unified_hunks) starts alone heading patches patches_crash.
Proof.
  assert (R : (forall ls m m' rest, contents m [] -> hunk_fuel unified_hunks ls m = Ok (m', rest) -> exists new, patches ls new rest) /\
    (forall ls hs rest hs' rest', patches ls hs rest -> patches ls hs' rest' -> rest = rest') /\
    (forall ls m, (exists why, hunk_fuel unified_hunks ls m = UB why) -> patches_crash ls) /\
    (forall ls m r, patches_crash ls -> hunk_fuel unified_hunks ls m <> Ok r)).
  { split; [exact read_patches|]. split; [intros ? ? ? ? ? A B; exact (proj2 (patches_same _ _ _ A _ _ B))|]. split; [intros ? ?; apply patches_cases|intros ls m r C; now apply patches_sound]. }
  assert (U : well_read unified_diff_header (hunk_fuel unified_hunks) unified_start always unified_heading patches patches_crash).
  { split; [intros l m rest Q; pose proof (unified_head_ok l) as S; rewrite Q in S; exact S|].
    split; [intros l rest Q; pose proof (unified_head_ok l) as S; rewrite Q in S; exact S|]. split; [exact unified_alone|].
    split; [apply heads_unified|]. split; [|exact R]. intros hd m hd' m' x x' A B C. exact (proj1 (proj2 heads_unified _ _ _ _ _ _ A B C)). }
  destruct g; [exists unified_start, always, unified_heading; split; [reflexivity|exact U]..|].
  exists perforce_start, never, perforce_heading. split; [reflexivity|]. cbn [unified_head_of].
  split; [intros l m rest Q; injection Q as Q; apply perforce_found; exact Q|]. split; [intros l rest Q; injection Q as Q; apply (perforce_missing l rest); exact Q|].
  split; [exact perforce_alone|]. split; [apply heads_perforce|]. split; [|exact R]. intros hd m hd' m' x x' A B C. exact (proj1 (proj2 heads_perforce _ _ _ _ _ _ A B C)).
Qed.
Lemma context_well g : exists starts alone heading, context_crash g = files_crash starts alone heading chunks chunks_crash /\
  well_read (context_head_of g) (hunk_fuel context_hunks) starts alone heading chunks chunks_crash.
Proof.
  assert (R : (forall ls m m' rest, contents m [] -> hunk_fuel context_hunks ls m = Ok (m', rest) -> exists new, chunks ls new rest) /\
    (forall ls hs rest hs' rest', chunks ls hs rest -> chunks ls hs' rest' -> rest = rest') /\
    (forall ls m, (exists why, hunk_fuel context_hunks ls m = UB why) -> chunks_crash ls) /\
    (forall ls m r, chunks_crash ls -> hunk_fuel context_hunks ls m <> Ok r)).
  { split; [exact read_chunks|]. split; [intros ? ? ? ? ? A B; exact (proj2 (chunks_same _ _ _ A _ _ B))|]. split; [intros ? ?; apply chunks_cases|intros ls m r C; now apply chunks_sound]. }
  assert (U : forall cvs, well_read (context_diff_header (xh1 cvs) (xh2 cvs)) (hunk_fuel context_hunks) (xstarts cvs) always (xheading cvs) chunks chunks_crash).
  { intros cvs. split; [intros l m rest Q; pose proof (context_search_ok cvs l) as S; rewrite Q in S; exact S|].
    split; [intros l rest Q; pose proof (context_search_ok cvs l) as S; rewrite Q in S; exact S|]. split; [apply context_alone|].
    split; [destruct cvs; [apply heads_cvs|apply heads_context]|]. split; [|exact R]. intros hd m hd' m' x x' A B C.
    destruct cvs; [exact (proj1 (proj2 heads_cvs _ _ _ _ _ _ A B C))|exact (proj1 (proj2 heads_context _ _ _ _ _ _ A B C))]. }
  destruct g.
  - exists cvs_start, always, cvs_heading. split; [reflexivity|exact (U true)].
  - exists context_start, always, context_heading. split; [reflexivity|exact (U false)].
  - exists perforce_start, never, perforce_heading. split; [reflexivity|]. cbn [context_head_of].
    split; [intros l m rest Q; injection Q as Q; apply perforce_found; exact Q|]. split; [intros l rest Q; injection Q as Q; apply (perforce_missing l rest); exact Q|].
    split; [exact perforce_alone|]. split; [apply heads_perforce|]. split; [|exact R]. intros hd m hd' m' x x' A B C. exact (proj1 (proj2 heads_perforce _ _ _ _ _ _ A B C)).
Qed.
Lemma normal_defined g ls why : parse_normal g ls <> UB why.
Proof.
  intros H. unfold parse_normal in H.
  assert (F : forall head header fuel l ms bad, (forall l, exists r, head l = Ok r) -> ~ is_ub (files head (hunk_fuel normal_hunks) header fuel l ms bad)).
  { intros head header. induction fuel as [|fuel IH]; intros l ms bad HH; [auto|]. cbn [files]. destruct (HH l) as [[[m|] r] ->]; cbn [bind]; [|auto].
    apply bind_def; [apply normal_hunks_defined|]. intros [m2 l2] _. now apply IH. }
  assert (K : ~ is_ub (parse_normal g ls)).
  { unfold parse_normal. apply bind_def; [apply F; intros l; unfold normal_head_of; eauto|]. intros [[ms b] r] _. destruct g; auto; (apply bind_def; [apply normal_hunks_defined|intros [m l] _; auto]). }
  apply K. unfold parse_normal. rewrite H. exact I.
Qed.

(** * C27 *)
Theorem C27_undefined_exactly :
  forall sort ls, (exists why, parse sort ls = UB why) <-> unreadable ls.
Proof.
  intros sort ls. assert (NF : parse sort ls <> OutOfFuel) by apply parse_fuel. split.
  - intros [why H]. assert (D : (exists k ls', ls = k :: ls' /\ no_newline_marker k) \/ forall k ls', ls = k :: ls' -> ~ no_newline_marker k).
    { destruct ls as [|k ls']; [right; discriminate|]. destruct (marker_dec k) as [M|M]; [left; eauto|right]. intros x y E. injection E as <- _. exact M. }
    destruct D as [D|D]; [left; exact D|right].
    destruct (cleaned_some _ ls (le_n _) D) as [out C]. exists (determine_generator ls), out. split; [now apply from_iff|]. split; [exact C|].
    unfold parse, clean_up_crap in H. destruct (clean_cleaned _ _ C [] 0) as [n E]. rewrite E in H. cbn [bind rev app] in H. set (g := determine_generator ls) in *.
    destruct (base_parse sort g out) as [[ms b]|w|] eqn:EB; cbn [bind] in H; try discriminate. unfold base_parse in EB. destruct (determine_format g out) eqn:EF; try discriminate.
    + right. split; [now apply told_iff|]. destruct (context_well g) as (starts & al & heading & -> & W).
      destruct (parse_context g out) as [[? ?]|w'|] eqn:EP; cbn [bind] in EB; try discriminate. unfold parse_context in EP.
      destruct (files _ _ _ _ _ _ _) as [[[? ?] ?]|w''|] eqn:EK; cbn [bind] in EP; try discriminate. eapply files_cases; [exact W|eauto].
    + exfalso. destruct (parse_normal g out) as [[? ?]|w'|] eqn:EP; cbn [bind] in EB; try discriminate. eapply normal_defined; exact EP.
    + left. split; [now apply told_iff|]. destruct (unified_well g) as (starts & al & heading & -> & W).
      destruct (parse_unified g out) as [[? ?]|w'|] eqn:EP; cbn [bind] in EB; try discriminate. unfold parse_unified in EP.
      destruct (files _ _ _ _ _ _ _) as [[[? ?] ?]|w''|] eqn:EK; cbn [bind] in EP; try discriminate. eapply files_cases; [exact W|eauto].
  - intros [(k & ls' & -> & M)|(g & out & HG & C & HC)].
    { apply C13_first_line_marker_undefined. exact M. }
    destruct (parse sort ls) as [o|why|] eqn:H; [exfalso|eauto|contradiction]. clear NF.
    unfold parse, clean_up_crap in H. destruct (clean_cleaned _ _ C [] 0) as [n E]. rewrite E in H. cbn [bind rev app] in H. apply from_iff in HG. rewrite HG in H.
    destruct (base_parse sort g out) as [[ms b]|w|] eqn:EB; cbn [bind] in H; try discriminate. unfold base_parse in EB.
    destruct HC as [[HT HC]|[HT HC]]; apply told_iff in HT; try discriminate; rewrite HT in EB.
    + destruct (parse_unified g out) as [[? ?]|w'|] eqn:EP; cbn [bind] in EB; try discriminate. unfold parse_unified in EP.
      destruct (files _ _ _ _ _ _ _) as [[[? ?] ?]|w''|] eqn:EK; cbn [bind] in EP; try discriminate. destruct (unified_well g) as (starts & al & heading & EC & W). rewrite EC in HC. eapply files_sound; [exact W|exact HC|exact EK].
    + destruct (parse_context g out) as [[? ?]|w'|] eqn:EP; cbn [bind] in EB; try discriminate. unfold parse_context in EP.
      destruct (files _ _ _ _ _ _ _) as [[[? ?] ?]|w''|] eqn:EK; cbn [bind] in EP; try discriminate. destruct (context_well g) as (starts & al & heading & EC & W). rewrite EC in HC. eapply files_sound; [exact W|exact HC|exact EK].
Qed.
Print Assumptions C27_undefined_exactly.
(** So every other text is read. *)
Theorem C27_readable_exactly :
  forall sort ls, (exists o, parse sort ls = Ok o) <-> ~ unreadable ls.
Proof.
  intros sort ls. rewrite <- (C27_undefined_exactly sort ls). split.
  - intros [o E] [w E']. congruence.
  - intros N. destruct (parse sort ls) as [o|w|] eqn:E; [eauto|exfalso; eauto|destruct (parse_fuel _ _ E)].
Qed.
Print Assumptions C27_readable_exactly.
(** The five kinds of unreadable texts of C27_parse_defined_refuted; a text with everything in it that is read; lines whose table
    has exactly as many cells as wrap around to none, and lines whose table is too large but does not wrap to a small number. *)
Example C27_exactly_example :
  Forall (fun l => unreadable (crash_lines l)) crash_inputs /\ ~ unreadable sample /\
  (let l := repeat 120%N (N.to_nat 65535) in wraps l l) /\ (let l := repeat 120%N (N.to_nat 65535) in ~ wraps l (l ++ repeat 121%N (N.to_nat 60000))).
Proof.
  split; [|split; [|split]].
  - eapply Forall_impl; [|exact C27_parse_defined_refuted]. intros l. apply C27_undefined_exactly.
  - apply (C27_readable_exactly (fun m => m)). destruct C27_example as [F S]. exact (C27_parse_defined_on_safe_input_partial _ _ _ F S).
  - cbv zeta. unfold wraps, area, limit. rewrite repeat_length. replace (N.of_nat (N.to_nat 65535 + 1)) with 65536%N by lia. split; vm_compute; discriminate.
  - cbv zeta. unfold wraps, area, limit. rewrite app_length, !repeat_length. replace (N.of_nat (N.to_nat 65535 + 1)) with 65536%N by lia.
    replace (N.of_nat (N.to_nat 65535 + N.to_nat 60000 + 1)) with 125536%N by lia. intros [_ H]. vm_compute in H. apply H. reflexivity.
Qed.
