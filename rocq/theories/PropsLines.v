(** C97: what becomes of every line of a normal, a context or a unified diff, well-formed or not. *)
From Coq Require Import String Permutation.
From Verif Require Import Base QtStr Lev Diff Regex Patterns Parser SpecEdit SpecInline SpecPatch SpecParse SpecNormal SpecLines
  PRegex PStar PLev PHistory PEditLines PParse PUnified PHeaders PFileHeads PUnifiedDoc PFuel PAnyInput PNormal PNormalDoc PLines PLineHeads PLineChunks PLineSame PLineUnified PropsParse.
Local Open Scope Z_scope.

Lemma files_with_ok head hunks header (starts : str -> Prop) (heading : list str -> dmodel -> Prop)
    (reading : list str -> list (hunk * list difference) -> list str -> Prop) :
  (forall ls m m', (forall st, with_contents m' [] [] st = with_contents m [] [] st) -> heading ls m -> heading ls m') ->
  (forall l, has_match header l = true <-> starts l) ->
  (forall ls m rest, head ls = Ok (Some m, rest) -> head_found starts heading ls m rest) ->
  (forall ls rest, head ls = Ok (None, rest) -> head_missing starts heading ls) ->
  (forall ls m m' rest, contents m [] -> hunks ls m = Ok (m', rest) ->
     exists new, reading ls new rest /\ contents m' new /\ (forall st, with_contents m' [] [] st = with_contents m [] [] st)) ->
  forall fuel ls ms bad ms' bad' rest,
  files head hunks header fuel ls ms bad = Ok (ms', bad', rest) ->
  exists new b, ms' = ms ++ new /\ bad' = (bad || b)%bool /\ files_with starts heading reading ls new b.
Proof.
  intros HN HB HH H0 HK. induction fuel as [|fuel IH]; intros ls ms bad ms' bad' rest H; [discriminate|].
  cbn [files] in H. destruct (head ls) as [[[m|] ls1]| |] eqn:EH; try discriminate; cbn [bind] in H.
  2: { injection H as <- <- <-. exists [], false. rewrite app_nil_r, orb_false_r. repeat (split; [reflexivity|]).
       apply H0 in EH as [F|(skip & l & r & -> & F & S & K)]; [now apply fw_end|now apply fw_stop]. }
  destruct (hunks ls1 m) as [[m2 ls2]| |] eqn:EK; try discriminate. cbn [bind] in H.
  apply HH in EH as (skip & hd & -> & FS & HS & HC).
  apply (HK _ _ _ _ HC) in EK as (new & HF & HC2 & HW).
  apply IH in H as (more & b2 & -> & -> & HF2). unfold append_model.
  pose proof (bad_next_spec header starts ls2 HB) as HBN.
  destruct (Nat.ltb_spec 0 (length (dm_diffs m2))) as [L|L].
  - exists (m2 :: more), (bad_next_header header ls2 || b2)%bool. rewrite <- app_assoc. split; [reflexivity|].
    split; [now rewrite orb_assoc|].
    eapply fw_file; eauto. destruct (dm_diffs m2); [cbn in L; lia|discriminate].
  - exists more, (bad_next_header header ls2 || b2)%bool. split; [reflexivity|]. split; [now rewrite orb_assoc|].
    eapply fw_nothing; eauto.
    intros h ds Hin. destruct HC2 as [[_ _ C3 _ _ _] _]. destruct (dm_diffs m2); [|cbn in L; lia].
    cbn in C3. injection C3 as C3. apply Forall_forall. intros d Hd.
    destruct (is_context d) eqn:E; [reflexivity|]. exfalso.
    assert (I : In d (filter (fun d => negb (is_context d)) (concat (map snd new)))).
    { apply filter_In. split; [|now rewrite E]. apply in_concat. exists ds. split; [|exact Hd].
      apply in_map_iff. exists (h, ds). auto. }
    rewrite <- C3 in I. exact I.
Qed.

Lemma perforce_starts l : has_match perforce_header l = true <-> perforce_start l.
Proof.
  pose proof (perforce_match l) as M. unfold has_match. destruct (full_match perforce_header l) as [c|]; split; auto; try discriminate.
  intros _. do 2 eexists. exact M.
Qed.
Lemma perforce_found ls m rest : perforce_diff_header ls = (Some m, rest) -> head_found perforce_start perforce_heading ls m rest.
Proof. intros H. pose proof (perforce_head_ok ls) as K. rewrite H in K. exact K. Qed.
Lemma perforce_missing ls rest : perforce_diff_header ls = (None, rest) -> head_missing perforce_start perforce_heading ls.
Proof. intros H. pose proof (perforce_head_ok ls) as K. rewrite H in K. left. exact K. Qed.
Lemma perforce_kept ls m m' : (forall st, with_contents m' [] [] st = with_contents m [] [] st) -> perforce_heading ls m -> perforce_heading ls m'.
Proof. intros W H. destruct H as [l s d n1 n2 m A B C D]. eapply ph_intro; eauto. eapply named_contents; eauto. Qed.
Lemma commands_hunks ls m m' rest : contents m [] -> hunk_fuel normal_hunks ls m = Ok (m', rest) ->
  exists new, commands ls new rest /\ contents m' new /\ (forall st, with_contents m' [] [] st = with_contents m [] [] st).
Proof. intros C H. exact (commands_ok _ _ _ _ _ [] C H). Qed.
Lemma chunks_hunks ls m m' rest : contents m [] -> hunk_fuel context_hunks ls m = Ok (m', rest) ->
  exists new, chunks ls new rest /\ contents m' new /\ (forall st, with_contents m' [] [] st = with_contents m [] [] st).
Proof. intros C H. exact (chunks_ok _ _ _ _ _ [] C H). Qed.

Lemma context_files g lines ms bad : parse_context g lines = Ok (ms, bad) ->
  match g with
  | Perforce => files_with perforce_start perforce_heading chunks lines ms bad
  | CVSDiff => files_with cvs_start cvs_heading chunks lines ms bad
  | DiffDiff => files_with context_start context_heading chunks lines ms bad
  end.
Proof.
  unfold parse_context. intros H. destruct (files _ _ _ _ _ _ _) as [[[ms1 b1] r]| |] eqn:E; try discriminate. cbn [bind] in H. injection H as <- <-.
  assert (X : forall cvs fuel ls ms' bad' rest, files (context_diff_header (xh1 cvs) (xh2 cvs)) (hunk_fuel context_hunks) (xh1 cvs) fuel ls [] false = Ok (ms', bad', rest) ->
     files_with (xstarts cvs) (xheading cvs) chunks ls ms' bad').
  { intros cvs fuel ls ms' bad' rest K. eapply files_with_ok with (starts := xstarts cvs) (heading := xheading cvs) (reading := chunks) in K.
    - destruct K as (new & b & -> & -> & K). exact K.
    - intros l m m' W Q. destruct cvs; cbn [xheading] in *; destruct Q; [eapply vh_intro|eapply xh_intro]; eauto; eapply named_contents; eauto.
    - apply xstarts_match.
    - intros l m rest' Q. pose proof (context_search_ok cvs l) as S. rewrite Q in S. exact S.
    - intros l rest' Q. pose proof (context_search_ok cvs l) as S. rewrite Q in S. exact S.
    - exact chunks_hunks. }
  destruct g.
  - exact (X true _ _ _ _ _ E).
  - exact (X false _ _ _ _ _ E).
  - cbn [context_head_of context_header1_of] in E.
    eapply files_with_ok with (starts := perforce_start) (heading := perforce_heading) (reading := chunks) in E.
    + destruct E as (new & b & -> & -> & K). exact K.
    + exact perforce_kept.
    + exact perforce_starts.
    + intros l m rest' Q. cbn [context_head_of] in Q. apply perforce_found. congruence.
    + intros l rest' Q. cbn [context_head_of] in Q. apply (perforce_missing l rest'). congruence.
    + exact chunks_hunks.
Qed.
Lemma new_model_clear : named (new_model [] []) [] [] [] [] /\ contents (new_model [] []) [].
Proof. exact (set_files_named [] [] _ eq_refl). Qed.
Lemma normal_files g lines ms bad : parse_normal g lines = Ok (ms, bad) ->
  match g with
  | Perforce => files_with perforce_start perforce_heading commands lines ms bad
  | CVSDiff => normal_with index_start index_heading lines ms bad
  | DiffDiff => normal_with diff_start diff_heading lines ms bad
  end.
Proof.
  unfold parse_normal. intros H. destruct (files _ _ _ _ _ _ _) as [[[ms1 b1] r]| |] eqn:E; try discriminate. cbn [bind] in H.
  assert (X : forall cvs fuel ls ms' bad' rest, files (fun ls => Ok (normal_diff_header_search cvs ls)) (hunk_fuel normal_hunks) (if cvs then cvs_normal_header else normal_diff_header) fuel ls [] false = Ok (ms', bad', rest) ->
     files_with (nstarts cvs) (nheading cvs) commands ls ms' bad').
  { clear. intros cvs fuel ls ms' bad' rest K. eapply files_with_ok with (starts := nstarts cvs) (heading := nheading cvs) (reading := commands) in K.
    - destruct K as (new & b & -> & -> & K). exact K.
    - intros l m m' W Q. destruct cvs; cbn [nheading] in *; destruct Q; [eapply ih_intro|eapply dh_intro]; eauto; eapply named_contents; eauto.
    - apply nstarts_match.
    - intros l m rest' Q. pose proof (normal_search_ok cvs l) as S. injection Q as Q. rewrite Q in S. exact S.
    - intros l rest' Q. pose proof (normal_search_ok cvs l) as S. injection Q as Q. rewrite Q in S. exact S.
    - exact commands_hunks. }
  assert (Y : forall cvs, files_with (nstarts cvs) (nheading cvs) commands lines ms1 b1 ->
     (do r <- hunk_fuel normal_hunks lines (new_model [] []);
      let '(m, ls) := r in Ok (append_model ms1 m, (b1 || negb (match ls with [] => true | _ => false end))%bool)) = Ok (ms, bad) ->
     normal_with (nstarts cvs) (nheading cvs) lines ms bad).
  { clear. intros cvs F H. destruct (hunk_fuel normal_hunks lines _) as [[m rest]| |] eqn:EN; try discriminate. cbn [bind] in H. injection H as <- <-.
    apply commands_hunks in EN as (hs & CM & CT & W); [|apply new_model_clear].
    exists ms1, b1, hs, rest. split; [exact F|]. split; [exact CM|]. split.
    - unfold append_model. destruct hs as [|[h ds] hs].
      + left. split; [reflexivity|]. destruct CT as [[_ _ C3 _ C5 _] _]. rewrite C5. reflexivity.
      + right. split; [discriminate|]. exists m. split; [|split; [exact CT|eapply named_contents; [exact W|apply new_model_clear]]].
        pose proof (commands_listed _ _ _ CM h ds (or_introl eq_refl)) as EX. destruct CT as [[_ _ C3 _ _ _] _].
        destruct (dm_diffs m) as [|x xs]; [|reflexivity]. exfalso. cbn in C3. injection C3 as C3. rewrite filter_app in C3.
        apply Exists_exists in EX as (d & I & E). assert (J : In d (filter (fun d => negb (is_context d)) ds)) by (apply filter_In; rewrite E; auto).
        symmetry in C3. apply app_eq_nil in C3 as [C3 _]. rewrite C3 in J. exact J.
    - destruct b1; cbn [orb]; [tauto|]. destruct rest; cbn; [split; [discriminate|intros [Q|Q]; [discriminate|contradiction]]|split; auto; intros _; right; discriminate]. }
  destruct g.
  - exact (Y true (X true _ _ _ _ _ E) H).
  - exact (Y false (X false _ _ _ _ _ E) H).
  - injection H as <- <-. cbn [normal_head_of normal_header_of] in E.
    eapply files_with_ok with (starts := perforce_start) (heading := perforce_heading) (reading := commands) in E.
    + destruct E as (new & b & -> & -> & K). exact K.
    + exact perforce_kept.
    + exact perforce_starts.
    + intros l m rest' Q. injection Q as Q. apply perforce_found. exact Q.
    + intros l rest' Q. injection Q as Q. apply (perforce_missing l rest'). exact Q.
    + exact commands_hunks.
Qed.

(** Every text read as a context diff, from each of the three programs. *)
Theorem C97_context_lines :
  forall sort ls o, (forall l, Permutation (sort l) l) -> parse sort ls = Ok o -> po_format o = Context ->
  exists ms, Permutation (the_models (po_models o)) ms /\
    match po_generator o with
    | Perforce => files_with perforce_start perforce_heading chunks (po_lines o) ms (po_malformed o)
    | CVSDiff => files_with cvs_start cvs_heading chunks (po_lines o) ms (po_malformed o)
    | DiffDiff => files_with context_start context_heading chunks (po_lines o) ms (po_malformed o)
    end.
Proof.
  intros sort ls o HP H EF. unfold parse in H. destruct (clean_up_crap ls) as [[l n]| |]; try discriminate. cbn [bind] in H.
  destruct (base_parse _ _ _) as [[ms b]| |] eqn:EB; try discriminate. cbn [bind] in H. injection H as <-.
  cbn [po_generator po_lines po_malformed po_models po_format] in *.
  unfold base_parse in EB. rewrite EF in EB.
  destruct (parse_context _ l) as [[ms0 b0]| |] eqn:EP; try discriminate. cbn [bind] in EB. injection EB as <- <-.
  apply context_files in EP. exists ms0. split; [rewrite the_models_sort; apply HP|exact EP].
Qed.
Print Assumptions C97_context_lines.
(** Every text read as a normal diff. *)
Theorem C97_normal_lines :
  forall sort ls o, (forall l, Permutation (sort l) l) -> parse sort ls = Ok o -> po_format o = Normal ->
  exists ms, Permutation (the_models (po_models o)) ms /\
    match po_generator o with
    | Perforce => files_with perforce_start perforce_heading commands (po_lines o) ms (po_malformed o)
    | CVSDiff => normal_with index_start index_heading (po_lines o) ms (po_malformed o)
    | DiffDiff => normal_with diff_start diff_heading (po_lines o) ms (po_malformed o)
    end.
Proof.
  intros sort ls o HP H EF. unfold parse in H. destruct (clean_up_crap ls) as [[l n]| |]; try discriminate. cbn [bind] in H.
  destruct (base_parse _ _ _) as [[ms b]| |] eqn:EB; try discriminate. cbn [bind] in H. injection H as <-.
  cbn [po_generator po_lines po_malformed po_models po_format] in *.
  unfold base_parse in EB. rewrite EF in EB.
  destruct (parse_normal _ l) as [[ms0 b0]| |] eqn:EP; try discriminate. cbn [bind] in EB. injection EB as <- <-.
  apply normal_files in EP. exists ms0. split; [rewrite the_models_sort; apply HP|exact EP].
Qed.
Print Assumptions C97_normal_lines.

(** * The readings are determined *)
Lemma first_start (starts : str -> Prop) skip : forall l x skip' l' x', Forall (fun l => ~ starts l) skip -> Forall (fun l => ~ starts l) skip' ->
  starts l -> starts l' -> skip ++ l :: x = skip' ++ l' :: x' -> skip = skip' /\ l = l' /\ x = x'.
Proof.
  induction skip as [|s skip IH]; intros l x [|s' skip'] l' x' A B S S' E; cbn [app] in E; injection E as E1 E2.
  - auto.
  - exfalso. inversion B; subst. contradiction.
  - exfalso. inversion A; subst. contradiction.
  - subst s'. inversion A; subst. inversion B; subst. apply IH in E2 as (-> & -> & ->); auto.
Qed.
Definition same_names (m m' : dmodel) : Prop := dm_source m = dm_source m' /\ dm_destination m = dm_destination m' /\ dm_sts m = dm_sts m' /\ dm_dts m = dm_dts m'.
Lemma named_names m m' s d t1 t2 : named m s d t1 t2 -> named m' s d t1 t2 -> same_names m m'.
Proof. intros [A1 A2 _ _ A3 A4 _ _] [B1 B2 _ _ B3 B4 _ _]. unfold same_names. rewrite A1, A2, A3, A4, B1, B2, B3, B4. auto. Qed.
Lemma shown_context hs hs' : map hunk_shows hs = map hunk_shows hs' ->
  (forall h ds, In (h, ds) hs -> Forall (fun d => is_context d = true) ds) -> forall h ds, In (h, ds) hs' -> Forall (fun d => is_context d = true) ds.
Proof.
  intros E K h ds I. assert (J : In (hunk_shows (h, ds)) (map hunk_shows hs)) by (rewrite E; now apply in_map).
  apply in_map_iff in J as ([h0 ds0] & J & I0). apply K in I0. unfold hunk_shows in J. cbn [fst snd] in J. injection J as _ _ _ J.
  apply Forall_forall. intros d Id. assert (X : In (difference_shows d) (map difference_shows ds0)) by (rewrite J; now apply in_map).
  apply in_map_iff in X as (d0 & X & Id0). rewrite Forall_forall in I0. apply I0 in Id0. unfold is_context in *. unfold difference_shows in X. injection X as X _ _.
  rewrite X in Id0. exact Id0.
Qed.
Lemma listed_not_context m hs : contents m hs -> dm_diffs m <> [] -> ~ (forall h ds, In (h, ds) hs -> Forall (fun d => is_context d = true) ds).
Proof.
  intros [[_ _ C3 _ _ _] _] NE K. apply NE. clear NE.
  assert (filter (fun d => negb (is_context d)) (concat (map snd hs)) = []) as E.
  { assert (F : Forall (fun d => is_context d = true) (concat (map snd hs))).
    { apply Forall_forall. intros d I. apply in_concat in I as (ds & I & Id). apply in_map_iff in I as ([h ds'] & <- & I). apply K in I. rewrite Forall_forall in I. auto. }
    clear -F. induction F as [|d l E F IH]; cbn; [reflexivity|]. rewrite E. exact IH. }
  rewrite E in C3. destruct (dm_diffs m) as [|i is]; [reflexivity|]. cbn [deref_all] in C3. unfold deref in C3.
  destruct (nth_error (dm_store m) i) as [d|]; [|discriminate C3]. cbn [bind] in C3. destruct (deref_all (dm_store m) is) as [l| |]; discriminate C3.
Qed.
Lemma files_same (starts : str -> Prop) (heading : list str -> dmodel -> Prop) (reading : list str -> list (hunk * list difference) -> list str -> Prop) :
  (forall hd m, heading hd m -> exists l tl, hd = l :: tl /\ starts l) ->
  (forall hd m hd' m' x x', heading hd m -> heading hd' m' -> hd ++ x = hd' ++ x' -> hd = hd' /\ same_names m m') ->
  (forall ls hs rest hs' rest', reading ls hs rest -> reading ls hs' rest' -> map hunk_shows hs = map hunk_shows hs' /\ rest = rest') ->
  forall ls ms b, files_with starts heading reading ls ms b -> forall ms' b', files_with starts heading reading ls ms' b' -> Forall2 same_file ms ms' /\ b = b'.
Proof.
  intros HS HU RU ls ms b H.
  assert (NB : forall b b' r, (b = true <-> unexpected starts r) -> (b' = true <-> unexpected starts r) -> b = b').
  { intros [] [] r A B; auto; [symmetry|]; tauto. }
  assert (NF : forall skip hd m body, Forall (fun l => ~ starts l) (skip ++ hd ++ body) -> heading hd m -> False).
  { intros skip hd m body F K. apply HS in K as (l & tl & -> & S). apply Forall_app in F as [_ F]. cbn [app] in F. inversion F; subst. contradiction. }
  assert (NT : forall skip l rest skip' hd m body, Forall (fun l => ~ starts l) skip -> Forall (fun l => ~ starts l) skip' -> starts l ->
     (forall hd tl m, l :: rest = hd ++ tl -> ~ heading hd m) -> heading hd m -> skip ++ l :: rest = skip' ++ hd ++ body -> False).
  { intros skip l rest skip' hd m body F F' S N K E. destruct (HS _ _ K) as (l' & tl & -> & S'). cbn [app] in E.
    apply (first_start starts) in E as (-> & -> & ->); auto. eapply N; [|exact K]. reflexivity. }
  assert (NN : forall skip hd m body skip' hd' m' body', Forall (fun l => ~ starts l) skip -> Forall (fun l => ~ starts l) skip' -> heading hd m -> heading hd' m' ->
     skip ++ hd ++ body = skip' ++ hd' ++ body' -> same_names m m' /\ body = body').
  { intros skip hd m body skip' hd' m' body' F F' K K' E. destruct (HS _ _ K) as (l & tl & E1 & S). destruct (HS _ _ K') as (l' & tl' & E2 & S').
    assert (E3 : skip = skip'). { rewrite E1, E2 in E. cbn [app] in E. apply (first_start starts) in E as (-> & _); auto. }
    subst skip'. apply app_inv_head in E. destruct (HU _ _ _ _ _ _ K K' E) as [-> SN]. split; [exact SN|]. now apply app_inv_head in E. }
  induction H as [rest F|skip l rest F S N|skip hd body hs m ls ms b bad F K R C NE B FW IH|skip hd m0 body hs ls ms b bad F K R ALL B FW IH]; intros ms' b' H'.
  - inversion H' as [|skip' l' rest' F' S' N' E|skip' hd' body' hs' m' ls' ms'' b'' bad' F' K' R' C' NE' B' FW' E|skip' hd' m0' body' hs' ls' ms'' b'' bad' F' K' R' ALL' B' FW' E]; subst.
    + split; constructor.
    + exfalso. apply Forall_app in F as [_ F]. inversion F; subst. contradiction.
    + exfalso. eapply NF; eauto.
    + exfalso. eapply NF; eauto.
  - inversion H' as [rest' F' E|skip' l' rest' F' S' N' E|skip' hd' body' hs' m' ls' ms'' b'' bad' F' K' R' C' NE' B' FW' E|skip' hd' m0' body' hs' ls' ms'' b'' bad' F' K' R' ALL' B' FW' E]; subst.
    + split; constructor.
    + split; constructor.
    + exfalso. symmetry in E. exact (NT skip l rest skip' hd' _ body' F F' S N K' E).
    + exfalso. symmetry in E. exact (NT skip l rest skip' hd' _ body' F F' S N K' E).
  - inversion H' as [rest' F' E|skip' l' rest' F' S' N' E|skip' hd' body' hs' m' ls' ms'' b'' bad' F' K' R' C' NE' B' FW' E|skip' hd' m0' body' hs' ls' ms'' b'' bad' F' K' R' ALL' B' FW' E]; subst.
    + exfalso. eapply NF; eauto.
    + exfalso. exact (NT skip' l' rest' skip hd _ body F' F S' N' K E).
    + destruct (NN _ _ _ _ _ _ _ _ F' F K' K E) as [SN ->]. destruct (RU _ _ _ _ _ R R') as [SH <-]. apply IH in FW' as [F2 <-].
      rewrite (NB _ _ _ B B'). split; [|reflexivity]. constructor; [|exact F2]. split.
      * unfold same_names in SN. intuition congruence.
      * exists hs, hs'. auto.
    + exfalso. destruct (NN _ _ _ _ _ _ _ _ F' F K' K E) as [_ ->]. destruct (RU _ _ _ _ _ R R') as [SH <-].
      apply (listed_not_context _ _ C NE). eapply shown_context; [symmetry; exact SH|exact ALL'].
  - inversion H' as [rest' F' E|skip' l' rest' F' S' N' E|skip' hd' body' hs' m' ls' ms'' b'' bad' F' K' R' C' NE' B' FW' E|skip' hd' m0' body' hs' ls' ms'' b'' bad' F' K' R' ALL' B' FW' E]; subst.
    + exfalso. eapply NF; eauto.
    + exfalso. exact (NT skip' l' rest' skip hd _ body F' F S' N' K E).
    + exfalso. destruct (NN _ _ _ _ _ _ _ _ F' F K' K E) as [_ ->]. destruct (RU _ _ _ _ _ R R') as [SH <-].
      apply (listed_not_context _ _ C' NE'). eapply shown_context; [exact SH|exact ALL].
    + destruct (NN _ _ _ _ _ _ _ _ F' F K' K E) as [_ ->]. destruct (RU _ _ _ _ _ R R') as [SH <-]. apply IH in FW' as [F2 <-].
      rewrite (NB _ _ _ B B'). split; [exact F2|reflexivity].
Qed.

Lemma context_line_same mark l p t p' t' : context_header_line (lit mark) l p t -> context_header_line (lit mark) l p' t' -> p = p' /\ t = t'.
Proof. intros H H'. apply context_header_match in H as (c & M & <- & <- & _). apply context_header_match in H' as (c' & M' & <- & <- & _). rewrite M in M'. injection M' as <-. auto. Qed.
Lemma cvs_old_same l p t p' t' : cvs_old_line l p t -> cvs_old_line l p' t' -> p = p' /\ t = t'.
Proof. intros H H'. apply cvs_old_match in H as (c & M & <- & <- & _). apply cvs_old_match in H' as (c' & M' & <- & <- & _). rewrite M in M'. injection M' as <-. auto. Qed.
Lemma cvs_new_same l p t p' t' : cvs_new_line l p t -> cvs_new_line l p' t' -> p = p' /\ t = t'.
Proof. intros H H'. apply cvs_new_match in H as (c & M & <- & <- & _). apply cvs_new_match in H' as (c' & M' & <- & <- & _). rewrite M in M'. injection M' as <-. auto. Qed.
Lemma diff_line_same l p t p' t' : diff_line l p t -> diff_line l p' t' -> p = p' /\ t = t'.
Proof. intros H H'. apply diff_line_match in H as (c & M & <- & <-). apply diff_line_match in H' as (c' & M' & <- & <-). rewrite M in M'. injection M' as <-. auto. Qed.
Lemma index_line_same l p p' : index_line l p -> index_line l p' -> p = p'.
Proof. intros [n O] H'. inversion H' as [n' O' E]. subst. symmetry. now apply app_inv_tail in E. Qed.
Lemma perforce_line_same l s d s' d' : perforce_line l s d -> perforce_line l s' d' -> s = s' /\ d = d'.
Proof.
  intros [s0 d0 A B C] H'. inversion H' as [s1 d1 A' B' C' E]. subst.
  assert (E2 : (s' ++ lit " - " ++ d') ++ lit " ====" ++ [NL] = (s0 ++ lit " - " ++ d0) ++ lit " ====" ++ [NL]) by (rewrite <- !app_assoc; exact E).
  apply app_inv_tail in E2. pose proof (C _ _ (eq_sym E2)) as L1. pose proof (C' _ _ E2) as L2.
  assert (L : length s' = length s0) by lia. pose proof (f_equal (firstn (length s0)) E2) as X. rewrite <- L in X at 1. rewrite !firstn_app, !firstn_all, L, !Nat.sub_diag in X.
  cbn [firstn] in X. rewrite !app_nil_r in X. subst s'. apply app_inv_head in E2. apply app_inv_head in E2. auto.
Qed.
Lemma revisioned_same need s n n' : revisioned need s n -> revisioned need s n' -> n = n'.
Proof.
  intros (k & -> & _ & N & _) (k' & E & _ & N' & _). change (lit "#") with [35%N] in E. cbn [app] in E. revert n' N N' E. induction n as [|x n IH]; intros [|y n'] N N' E; cbn [app] in E.
  - reflexivity.
  - exfalso. apply N'. left. injection E as <- _. reflexivity.
  - exfalso. apply N. left. injection E as -> _. reflexivity.
  - injection E as <- E. f_equal. apply IH; auto; intros I; [apply N|apply N']; right; exact I.
Qed.
Lemma perforce_name_same need s n n' : perforce_name need s n -> perforce_name need s n' -> n = n'.
Proof. intros [A|[-> A]] [B|[-> B]]; [eapply revisioned_same; eauto|apply B in A; destruct A|apply A in B; destruct B|reflexivity]. Qed.

Lemma heads_context : (forall hd m, context_heading hd m -> exists l tl, hd = l :: tl /\ context_start l) /\
  (forall hd m hd' m' x x', context_heading hd m -> context_heading hd' m' -> hd ++ x = hd' ++ x' -> hd = hd' /\ same_names m m').
Proof.
  split.
  - intros hd m [l1 p1 t1 l2 p2 t2 m' A B C]. exists l1, [l2]. split; [reflexivity|]. do 2 eexists; exact A.
  - intros hd m hd' m' x x' [l1 p1 t1 l2 p2 t2 m0 A B C] [l1' p1' t1' l2' p2' t2' m0' A' B' C'] E. cbn [app] in E. injection E as <- <- _. split; [reflexivity|].
    destruct (context_line_same _ _ _ _ _ _ A A') as [<- <-]. destruct (context_line_same _ _ _ _ _ _ B B') as [<- <-]. eapply named_names; eauto.
Qed.
Lemma heads_cvs : (forall hd m, cvs_heading hd m -> exists l tl, hd = l :: tl /\ cvs_start l) /\
  (forall hd m hd' m' x x', cvs_heading hd m -> cvs_heading hd' m' -> hd ++ x = hd' ++ x' -> hd = hd' /\ same_names m m').
Proof.
  split.
  - intros hd m [l1 p1 t1 l2 p2 t2 m' A B C]. exists l1, [l2]. split; [reflexivity|]. do 2 eexists; exact A.
  - intros hd m hd' m' x x' [l1 p1 t1 l2 p2 t2 m0 A B C] [l1' p1' t1' l2' p2' t2' m0' A' B' C'] E. cbn [app] in E. injection E as <- <- _. split; [reflexivity|].
    destruct (cvs_old_same _ _ _ _ _ A A') as [<- <-]. destruct (cvs_new_same _ _ _ _ _ B B') as [<- <-]. eapply named_names; eauto.
Qed.
Lemma heads_diff : (forall hd m, diff_heading hd m -> exists l tl, hd = l :: tl /\ diff_start l) /\
  (forall hd m hd' m' x x', diff_heading hd m -> diff_heading hd' m' -> hd ++ x = hd' ++ x' -> hd = hd' /\ same_names m m').
Proof.
  split.
  - intros hd m [l1 p1 t1 m' A B]. exists l1, []. split; [reflexivity|]. do 2 eexists; exact A.
  - intros hd m hd' m' x x' [l1 p1 t1 m0 A B] [l1' p1' t1' m0' A' B'] E. cbn [app] in E. injection E as <- _. split; [reflexivity|].
    destruct (diff_line_same _ _ _ _ _ A A') as [<- <-]. eapply named_names; eauto.
Qed.
Lemma heads_index : (forall hd m, index_heading hd m -> exists l tl, hd = l :: tl /\ index_start l) /\
  (forall hd m hd' m' x x', index_heading hd m -> index_heading hd' m' -> hd ++ x = hd' ++ x' -> hd = hd' /\ same_names m m').
Proof.
  split.
  - intros hd m [l1 p1 m' A B]. exists l1, []. split; [reflexivity|]. eexists; exact A.
  - intros hd m hd' m' x x' [l1 p1 m0 A B] [l1' p1' m0' A' B'] E. cbn [app] in E. injection E as <- _. split; [reflexivity|].
    rewrite <- (index_line_same _ _ _ A A') in B'. eapply named_names; eauto.
Qed.
Lemma heads_perforce : (forall hd m, perforce_heading hd m -> exists l tl, hd = l :: tl /\ perforce_start l) /\
  (forall hd m hd' m' x x', perforce_heading hd m -> perforce_heading hd' m' -> hd ++ x = hd' ++ x' -> hd = hd' /\ same_names m m').
Proof.
  split.
  - intros hd m [l1 s d n1 n2 m' A B C D]. exists l1, []. split; [reflexivity|]. do 2 eexists; exact A.
  - intros hd m hd' m' x x' [l1 s d n1 n2 m0 A B C D] [l1' s' d' n1' n2' m0' A' B' C' D'] E. cbn [app] in E. injection E as <- _. split; [reflexivity|].
    destruct (perforce_line_same _ _ _ _ _ A A') as [<- <-]. rewrite <- (perforce_name_same _ _ _ _ B B'), <- (perforce_name_same _ _ _ _ C C') in D'. eapply named_names; eauto.
Qed.
(** Two readings of the same lines give the same files and the same verdict: the two theorems above say all there is to say. *)
Theorem C97_context_determined :
  forall g ls ms b ms' b',
  let reading := match g with
    | Perforce => files_with perforce_start perforce_heading chunks
    | CVSDiff => files_with cvs_start cvs_heading chunks
    | DiffDiff => files_with context_start context_heading chunks end in
  reading ls ms b -> reading ls ms' b' -> Forall2 same_file ms ms' /\ b = b'.
Proof.
  assert (R : forall ls hs rest hs' rest', chunks ls hs rest -> chunks ls hs' rest' -> map hunk_shows hs = map hunk_shows hs' /\ rest = rest') by (intros; eapply chunks_same; eauto).
  intros [] ls ms b ms' b' rd H H'; subst rd; cbv beta iota in *; eapply files_same; [apply heads_cvs|apply heads_cvs|exact R|exact H|exact H'|apply heads_context|apply heads_context|exact R|exact H|exact H'|apply heads_perforce|apply heads_perforce|exact R|exact H|exact H'].
Qed.
Print Assumptions C97_context_determined.
Theorem C97_normal_determined :
  forall g ls ms b ms' b',
  let reading := match g with
    | Perforce => files_with perforce_start perforce_heading commands
    | CVSDiff => normal_with index_start index_heading
    | DiffDiff => normal_with diff_start diff_heading end in
  reading ls ms b -> reading ls ms' b' -> Forall2 same_file ms ms' /\ b = b'.
Proof.
  assert (R : forall ls hs rest hs' rest', commands ls hs rest -> commands ls hs' rest' -> map hunk_shows hs = map hunk_shows hs' /\ rest = rest') by (intros; eapply commands_same; eauto).
  assert (W : forall (starts : str -> Prop) (heading : list str -> dmodel -> Prop),
    (forall hd m, heading hd m -> exists l tl, hd = l :: tl /\ (starts l : Prop)) ->
    (forall hd m hd' m' x x', heading hd m -> heading hd' m' -> hd ++ x = hd' ++ x' -> hd = hd' /\ same_names m m') ->
    forall ls ms b ms' b', normal_with starts heading ls ms b -> normal_with starts heading ls ms' b' -> Forall2 same_file ms ms' /\ b = b').
  { intros starts heading A B ls ms b ms' b' (ms1 & b1 & hs & rest & F & C & M & V) (ms1' & b1' & hs' & rest' & F' & C' & M' & V').
    destruct (files_same starts heading commands A B R _ _ _ F _ _ F') as [F2 <-]. destruct (R _ _ _ _ _ C C') as [SH <-].
    split; [|destruct b, b'; auto; [symmetry|]; tauto].
    destruct M as [[-> ->]|(NE & m & -> & CT & NM)]; destruct M' as [[-> ->]|(NE' & m' & -> & CT' & NM')]; auto.
    - destruct hs'; [contradiction|discriminate].
    - destruct hs; [contradiction|discriminate].
    - apply Forall2_app; [exact F2|]. constructor; [|constructor]. split; [|exists hs, hs'; auto].
      destruct NM as [A1 A2 _ _ A3 A4 _ _], NM' as [B1 B2 _ _ B3 B4 _ _]. rewrite A1, A2, A3, A4, B1, B2, B3, B4. auto. }
  intros [] ls ms b ms' b' rd H H'; subst rd; cbv beta iota in *.
  - eapply W; [apply heads_index|apply heads_index|exact H|exact H'].
  - eapply W; [apply heads_diff|apply heads_diff|exact H|exact H'].
  - eapply files_same; [apply heads_perforce|apply heads_perforce|exact R|exact H|exact H'].
Qed.
Print Assumptions C97_normal_determined.
(** So a normal diff that is not from Perforce is called well-formed exactly if it is commands from the first line to the last:
    one with file headers never is. *)
Lemma commands_no_start (starts : str -> Prop) : (forall l, starts l -> exists x, l = lit "diff " ++ x \/ l = lit "Index: " ++ x) ->
  forall ls hs rest, commands ls hs rest -> rest = [] -> Forall (fun l => ~ starts l) ls.
Proof.
  intros S. assert (K : forall l, (forall x, l <> lit "diff " ++ x /\ l <> lit "Index: " ++ x) -> ~ starts l).
  { intros l N H. apply S in H as (x & [H|H]); destruct (N x); contradiction. }
  assert (HD : forall c l, hd 0%N l = c -> c <> 100%N -> c <> 73%N -> forall x : str, l <> lit "diff " ++ x /\ l <> lit "Index: " ++ x).
  { intros c l <- A B x. split; intros ->; [apply A|apply B]; reflexivity. }
  assert (RUN : forall mark ts, hd 0%N (lit mark) <> 100%N -> hd 0%N (lit mark) <> 73%N -> lit mark <> [] -> Forall (fun l => ~ starts l) (run_of mark ts)).
  { intros mark ts A B C. apply Forall_forall. intros l I. apply in_map_iff in I as (t & <- & _). apply K. eapply HD; [reflexivity|..];
      destruct (lit mark); [contradiction|exact A|contradiction|exact B]. }
  induction 1 as [rest N|l ty a b body old new h d ls hs rest CL CB A1 A2 A3 A4 CT SH PR CM IH]; intros E; [subst; constructor|].
  constructor; [|apply Forall_app; split; [|now apply IH]].
  - apply K. assert (D : exists n x, l = n ++ x /\ digit_string n) by (destruct CL; do 2 eexists; (split; [reflexivity|assumption])).
    destruct D as (n & x & -> & NE & D). destruct n as [|c n]; [contradiction|]. cbn in D. apply andb_true_iff in D as [D _].
    eapply HD; [reflexivity| |]; cbn [app hd]; intros ->; discriminate D.
  - destruct CB; repeat (apply Forall_app; split); try (apply RUN; discriminate). constructor; [|constructor]. apply K. eapply HD; [reflexivity|discriminate|discriminate].
Qed.
Theorem C97_well_formed_normal :
  forall sort ls o, (forall l, Permutation (sort l) l) -> parse sort ls = Ok o -> po_format o = Normal -> po_generator o <> Perforce ->
  (po_malformed o = false <-> exists hs, commands (po_lines o) hs []).
Proof.
  intros sort ls o HP H EF EG. destruct (C97_normal_lines sort ls o HP H EF) as (ms & _ & R).
  assert (G : forall (starts : str -> Prop) (heading : list str -> dmodel -> Prop), (forall l, starts l -> exists x, l = lit "diff " ++ x \/ l = lit "Index: " ++ x) ->
    (forall hd m, heading hd m -> exists l tl, hd = l :: tl /\ starts l) ->
    normal_with starts heading (po_lines o) ms (po_malformed o) -> po_malformed o = false <-> exists hs, commands (po_lines o) hs []).
  { intros starts heading S HS (ms1 & b1 & hs & rest & F & C & _ & V). split.
    - intros E. exists hs. destruct rest; [exact C|]. rewrite E in V. exfalso. assert (X : false = true) by (apply V; right; discriminate). discriminate X.
    - intros (hs' & C'). destruct (commands_same _ _ _ C _ _ C') as [_ ->].
      destruct (po_malformed o); [|reflexivity]. exfalso. destruct (proj1 V eq_refl) as [->|X]; [|contradiction].
      pose proof (commands_no_start starts S _ _ _ C' eq_refl) as NS. inversion F as [|skip l rest FS SS N E|skip hd body hs0 m ls0 ms0 b bad FS K RD CT NE B FW E|skip hd m0 body hs0 ls0 ms0 b bad FS K RD ALL B FW E]; subst.
      + rewrite <- E in NS. apply Forall_app in NS as [_ NS]. destruct (HS _ _ K) as (l & tl & -> & S1). inversion NS; subst. contradiction.
      + rewrite <- E in NS. apply Forall_app in NS as [_ NS]. destruct (HS _ _ K) as (l & tl & -> & S1). inversion NS; subst. contradiction. }
  destruct (po_generator o); [|..|contradiction].
  - eapply G; [| |exact R]; [|apply heads_index]. intros l (n & [n' O]). eexists. right. reflexivity.
  - eapply G; [| |exact R]; [|apply heads_diff]. intros l (n1 & n2 & D). destruct D. eexists. left. reflexivity.
Qed.
Print Assumptions C97_well_formed_normal.

(** * Unified diffs *)
Lemma patches_hunks ls m m' rest : contents m [] -> hunk_fuel unified_hunks ls m = Ok (m', rest) ->
  exists new, patches ls new rest /\ contents m' new /\ (forall st, with_contents m' [] [] st = with_contents m [] [] st).
Proof. intros C H. exact (patches_ok _ _ _ _ _ [] C H). Qed.
Lemma unified_starts l : has_match unified_header1 l = true <-> unified_start l.
Proof.
  unfold has_match, unified_start. destruct (full_match unified_header1 l) as [c|] eqn:E.
  - apply match_header_line in E as [E _]. split; eauto.
  - split; [discriminate|]. intros (p & t & H). exfalso. exact (proj1 (no_header_line "--- " l) E p t H).
Qed.
Lemma unified_files g lines ms bad : parse_unified g lines = Ok (ms, bad) ->
  match g with
  | Perforce => files_with perforce_start perforce_heading patches lines ms bad
  | _ => files_with unified_start unified_heading patches lines ms bad
  end.
Proof.
  unfold parse_unified. intros H. destruct (files _ _ _ _ _ _ _) as [[[ms1 b1] r]| |] eqn:E; try discriminate. cbn [bind] in H. injection H as <- <-.
  assert (X : forall fuel ls ms' bad' rest, files unified_diff_header (hunk_fuel unified_hunks) unified_header1 fuel ls [] false = Ok (ms', bad', rest) ->
     files_with unified_start unified_heading patches ls ms' bad').
  { clear. intros fuel ls ms' bad' rest K. eapply files_with_ok with (starts := unified_start) (heading := unified_heading) (reading := patches) in K.
    - destruct K as (new & b & -> & -> & K). exact K.
    - intros l m m' W Q. destruct Q. eapply uh_intro; eauto using named_contents.
    - exact unified_starts.
    - intros l m rest' Q. pose proof (unified_head_ok l) as S. rewrite Q in S. exact S.
    - intros l rest' Q. pose proof (unified_head_ok l) as S. rewrite Q in S. exact S.
    - exact patches_hunks. }
  destruct g.
  - exact (X _ _ _ _ _ E).
  - exact (X _ _ _ _ _ E).
  - cbn [unified_head_of unified_header1_of] in E.
    eapply files_with_ok with (starts := perforce_start) (heading := perforce_heading) (reading := patches) in E.
    + destruct E as (new & b & -> & -> & K). exact K.
    + exact perforce_kept.
    + exact perforce_starts.
    + intros l m rest' Q. injection Q as Q. apply perforce_found. exact Q.
    + intros l rest' Q. injection Q as Q. apply (perforce_missing l rest'). exact Q.
    + exact patches_hunks.
Qed.
(** Every text read as a unified diff. *)
Theorem C97_unified_lines :
  forall sort ls o, (forall l, Permutation (sort l) l) -> parse sort ls = Ok o -> po_format o = Unified ->
  exists ms, Permutation (the_models (po_models o)) ms /\
    match po_generator o with
    | Perforce => files_with perforce_start perforce_heading patches (po_lines o) ms (po_malformed o)
    | _ => files_with unified_start unified_heading patches (po_lines o) ms (po_malformed o)
    end.
Proof.
  intros sort ls o HP H EF. unfold parse in H. destruct (clean_up_crap ls) as [[l n]| |]; try discriminate. cbn [bind] in H.
  destruct (base_parse _ _ _) as [[ms b]| |] eqn:EB; try discriminate. cbn [bind] in H. injection H as <-.
  cbn [po_generator po_lines po_malformed po_models po_format] in *.
  unfold base_parse in EB. rewrite EF in EB.
  destruct (parse_unified _ l) as [[ms0 b0]| |] eqn:EP; try discriminate. cbn [bind] in EB. injection EB as <- <-.
  apply unified_files in EP. exists ms0. split; [rewrite the_models_sort; apply HP|exact EP].
Qed.
Print Assumptions C97_unified_lines.
Lemma header_line_same mark l p t p' t' : header_line (lit mark) l p t -> header_line (lit mark) l p' t' -> p = p' /\ t = t'.
Proof. intros H H'. apply header_line_match in H as (c & M & <- & <- & _). apply header_line_match in H' as (c' & M' & <- & <- & _). rewrite M in M'. injection M' as <-. auto. Qed.
Lemma heads_unified : (forall hd m, unified_heading hd m -> exists l tl, hd = l :: tl /\ unified_start l) /\
  (forall hd m hd' m' x x', unified_heading hd m -> unified_heading hd' m' -> hd ++ x = hd' ++ x' -> hd = hd' /\ same_names m m').
Proof.
  split.
  - intros hd m [l1 p1 t1 l2 p2 t2 m' A B C]. exists l1, [l2]. split; [reflexivity|]. do 2 eexists; exact A.
  - intros hd m hd' m' x x' [l1 p1 t1 l2 p2 t2 m0 A B C] [l1' p1' t1' l2' p2' t2' m0' A' B' C'] E. cbn [app] in E. injection E as <- <- _. split; [reflexivity|].
    destruct (header_line_same _ _ _ _ _ _ A A') as [<- <-]. destruct (header_line_same _ _ _ _ _ _ B B') as [<- <-]. eapply named_names; eauto.
Qed.
Theorem C97_unified_determined :
  forall g ls ms b ms' b',
  let reading := match g with
    | Perforce => files_with perforce_start perforce_heading patches
    | _ => files_with unified_start unified_heading patches end in
  reading ls ms b -> reading ls ms' b' -> Forall2 same_file ms ms' /\ b = b'.
Proof.
  assert (R : forall ls hs rest hs' rest', patches ls hs rest -> patches ls hs' rest' -> map hunk_shows hs = map hunk_shows hs' /\ rest = rest') by (intros; eapply patches_same; eauto).
  intros [] ls ms b ms' b' rd H H'; subst rd; cbv beta iota in *; eapply files_same; [apply heads_unified|apply heads_unified|exact R|exact H|exact H'|apply heads_unified|apply heads_unified|exact R|exact H|exact H'|apply heads_perforce|apply heads_perforce|exact R|exact H|exact H'].
Qed.
Print Assumptions C97_unified_determined.

(** Malformed texts of each format. Context: the added line on the old side ends the differences of the hunk, so the changed lines
    after it are lost; the next hunk has no second range and is dropped. Unified: the counts of the first hunk are too small, so
    the second removed line is not read and the text is malformed. Normal: the line of dashes is missing, so the added
    line of the second change is not read. *)
Definition bad_lines (l : list string) : list str := map (fun s => lit s ++ [NL]) l.
Definition bad_context : list str := bad_lines
  ["*** a	1"; "--- b	2"; "***************"; "*** 1,3 ****"; "- x"; "+ y"; "! z"; "--- 1,2 ----"; "  w"; "! u"; "***************"; "*** 9,9 ****"; "- q"; "rubbish"]%string.
Definition bad_unified : list str := bad_lines ["--- a"; "+++ b"; "@@ -1 +0,0 @@"; "-x"; "-y"; "@@ -9 +9 @@"; "-x"; "+y"]%string.
Definition bad_normal : list str := bad_lines ["1c1"; "< x"; "---"; "> y"; "3,4c2"; "< x"; "> y"]%string.
Example C97_example :
  let shown o := map (fun m => (dm_source m, map (fun d => (d_type d, lines_of (d_slines d), lines_of (d_dlines d))) (dm_store m))) (the_models (po_models o)) in
  (exists o, parse (fun l => l) bad_context = Ok o /\ po_format o = Context /\ po_malformed o = true /\
     shown o = [(lit "a", [(Delete, [lit "x"], [])])]) /\
  (exists o, parse (fun l => l) bad_unified = Ok o /\ po_format o = Unified /\ po_malformed o = true /\
     shown o = [(lit "a", [(Delete, [lit "x" ++ [NL]], [])])]) /\
  (exists o, parse (fun l => l) bad_normal = Ok o /\ po_format o = Normal /\ po_malformed o = true /\
     shown o = [([], [(Change, [lit "x"], [lit "y"]); (Change, [lit "x"], [])])]).
Proof. split; [|split]; eexists; (split; [vm_compute; reflexivity|]); vm_compute; auto. Qed.
