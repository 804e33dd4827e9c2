(** C106: what stands between the files of a unified diff. *)
From Coq Require Import String Sorted Permutation.
From Verif Require Import Base QtStr Diff Regex Patterns Parser SpecPatch SpecParse SpecText SpecUnified SpecBetween
  PHeaders PFileHeads PUnified PUnifiedDoc PAnyInput PropsParse PropsText PUnifiedPrint PUnifiedRead PropsUnified PNormalDoc PropsNormal.
Local Open Scope Z_scope.

Definition strange (g : list str) : bool :=
  match g with
  | [] => false
  | l :: _ => negb (starts_with (lit "Index: ") l || starts_with (lit "diff ") l || starts_with (lit "-- ") l)
  end.
Lemma starts_begins p l : starts_with (lit p) l = true <-> begins p l.
Proof. apply starts_with_app. Qed.
Lemma strange_spec g : strange g = true <-> strange_gap g.
Proof.
  destruct g as [|l ls]; cbn [strange].
  - split; [discriminate|]. intros (? & ? & E & _). discriminate.
  - rewrite negb_true_iff, <- not_true_iff_false, !orb_true_iff, !starts_begins. split.
    + intros H. exists l, ls. split; [reflexivity|]. intros [R|[R|R]]; apply H; auto.
    + intros (? & ? & E & H). injection E as <- <-. intros [[R|R]|R]; apply H; unfold resumes; auto.
Qed.
Definition gap_ok (g : list str) : Prop := Forall between_line g /\ forall l ls, g = l :: ls -> ~ begins "@@ -" l.
(** What follows a file whose gap is g. *)
Lemma after_gap g rest : gap_ok g -> (g = [] -> rest = [] \/ exists n t x r, rest = heading_text (lit "--- ") n t x :: r /\ name_ok n /\ stamp_ok t x) ->
  nonempty_next (g ++ rest) /\ no_hunk (g ++ rest) /\ bad_next_header unified_header1 (g ++ rest) = strange g.
Proof.
  intros [B NH] R. destruct g as [|l g].
  - cbn [app strange]. destruct (R eq_refl) as [->|(n & t & x & r & -> & N & S)].
    + split; [|split; [|reflexivity]]; intros ? ? E; discriminate.
    + split; [|split].
      * intros ? ? E. injection E as <- _. discriminate.
      * intros ? ? E. injection E as <- _. apply header_match_hunk. intros y E. discriminate.
      * unfold bad_next_header. destruct (header_line_match "--- " _ _ _ (heading_line "--- " _ _ _ N S)) as (c1 & M1 & _).
        unfold has_match, unified_header1. rewrite M1. reflexivity.
  - inversion_clear B as [|? ? [W H _ _] _]. cbn [app strange]. split; [|split].
    + intros ? ? E. injection E as <- _. now apply whole_nonempty.
    + intros ? ? E. injection E as <- _. apply header_match_hunk. intros y E. eapply NH; [reflexivity|]. exists y. exact E.
    + unfold bad_next_header, has_match. rewrite no_start_match by exact H. cbn [negb andb].
      destruct (starts_with (lit "Index: ") l), (starts_with (lit "diff ") l), (starts_with (lit "-- ") l); reflexivity.
Qed.
Lemma gap_files g ps after : Forall patch_ok ps -> map up_before ps ++ [after] = g :: tl (map up_before ps ++ [after]) ->
  exists rest, concat (map patch_clean ps) ++ after = g ++ rest /\
    (g = [] -> rest = [] \/ exists n t x r, rest = heading_text (lit "--- ") n t x :: r /\ name_ok n /\ stamp_ok t x).
Proof.
  intros OK E. destruct ps as [|p ps].
  - cbn in E. injection E as <-. exists []. cbn. rewrite app_nil_r. auto.
  - cbn [map app tl] in E. injection E as <-. inversion_clear OK as [|? ? [_ O _ S _ _ _] _]. cbn [map concat]. rewrite patch_cleaned, <- !app_assoc.
    eexists. split; [reflexivity|]. intros _. right. cbn [app]. eauto 10.
Qed.
Lemma loose_forward g ps : g <> Perforce -> forall fuel after ms bad,
  Forall patch_ok ps -> Forall between_line after -> Forall gap_ok (tl (map up_before ps ++ [after])) ->
  (length ps < fuel)%nat ->
  exists new rest, files (unified_head_of g) (hunk_fuel unified_hunks) (unified_header1_of g) fuel
      (concat (map patch_clean ps) ++ after) ms bad =
      Ok (ms ++ new, (bad || existsb strange (tl (map up_before ps ++ [after])))%bool, rest) /\ Forall2 patch_is ps new.
Proof.
  intros G. assert (HG : forall ls, unified_head_of g ls = unified_diff_header ls) by (destruct g; first [reflexivity|congruence]).
  assert (HH : unified_header1_of g = unified_header1) by (destruct g; first [reflexivity|congruence]).
  induction ps as [|p ps IH]; intros fuel after ms bad OK BA R L; (destruct fuel as [|fuel]; [cbn in L; lia|]); cbn [files]; rewrite HG.
  - exists [], []. rewrite app_nil_r. split; [|constructor]. cbn [map concat app tl existsb]. rewrite orb_false_r.
    enough (unified_diff_header after = Ok (None, [])) as -> by reflexivity. clear -BA.
    induction BA as [|l ls [_ H _ _] BA IH]; [reflexivity|]. cbn [unified_diff_header]. rewrite no_start_match by assumption. exact IH.
  - inversion_clear OK as [|? ? OKp OK']. cbn [map app tl] in *.
    assert (exists gp gs, map up_before ps ++ [after] = gp :: gs) as (gp & gs & EG) by (destruct ps; cbn; eauto).
    destruct (gap_files gp ps after OK') as (rest0 & ER & HR); [rewrite EG; reflexivity|].
    rewrite EG in R |- *. inversion_clear R as [|? ? Rg Rs].
    destruct (after_gap gp rest0 Rg HR) as (NE & NH & BN). rewrite <- ER in NE, NH, BN.
    destruct (head_forward p (concat (map hunk_clean (up_hunks p)) ++ concat (map patch_clean ps) ++ after) OKp) as (m0 & E0 & C0 & NM0).
    destruct (hunks_forward (up_hunks p) (S (length (concat (map hunk_clean (up_hunks p)) ++ concat (map patch_clean ps) ++ after)))
      (concat (map patch_clean ps) ++ after) m0 []) as (m & hs & EH & C & F & W); [destruct OKp; assumption|exact NE|exact NH| |exact C0|].
    { rewrite app_length. pose proof (hunks_count (up_hunks p)). unfold str, chr in *. lia. }
    assert (PI : patch_is p m).
    { split; [eapply named_contents; eauto|]. exists hs. split; [exact C|exact F]. }
    destruct (IH fuel after (ms ++ [m]) (bad || strange gp)%bool OK' BA) as (new & rest & E & FN); [rewrite EG; exact Rs|cbn in L; lia|].
    rewrite EG in E. cbn [tl] in E. exists (m :: new), rest. split; [|constructor; assumption].
    cbn [map concat]. rewrite patch_cleaned, <- !app_assoc.
    match goal with |- context [unified_diff_header ?x] => replace (unified_diff_header x) with
      (@Ok (option dmodel * list str) (Some m0, concat (map hunk_clean (up_hunks p)) ++ concat (map patch_clean ps) ++ after))
      by (rewrite <- E0; f_equal; cbn [app]; rewrite ?app_nil_r; reflexivity) end.
    cbn [bind]. unfold hunk_fuel at 1. rewrite EH. cbn [bind]. rewrite HH, BN.
    unfold append_model. pose proof (patch_listed _ _ OKp PI) as LI. apply Nat.ltb_lt in LI. rewrite LI.
    rewrite <- HH, E. rewrite <- app_assoc. cbn [app existsb]. now rewrite orb_assoc.
Qed.
Lemma loose_whole d : loose_ok d -> Forall whole_line (doc_lines d).
Proof.
  intros [A _ B _ _ _]. unfold doc_lines. apply Forall_app. split.
  - apply Forall_concat. apply Forall_map. eapply Forall_impl; [|exact A]. exact whole_patch.
  - eapply Forall_impl; [|exact B]. intros ? []; assumption.
Qed.
Lemma loose_generator d : loose_ok d -> determine_generator (doc_lines d) <> Perforce /\ (forall p ps, ud_files d = p :: ps -> determine_generator (doc_lines d) = CVSDiff -> up_stamp1 p <> []).
Proof.
  intros [OK _ BA _ _ ST].
  assert (P : Forall (fun l => ~ begins "==== " l) (doc_lines d)).
  { apply Forall_forall. intros l I. apply in_doc in I as [(p & I1 & I2)|[I|(c & x & -> & I)]].
    - rewrite Forall_forall in OK. destruct (OK p I1) as [B _ _ _ _ _ _]. rewrite Forall_forall in B. destruct (B l I2). assumption.
    - rewrite Forall_forall in BA. destruct (BA l I). assumption.
    - intros [y E]. injection E as -> _. vm_compute in I. intuition discriminate. }
  destruct (generator_of _ P) as [G1 G2]. split; [exact G1|].
  intros p ps E C H. specialize (ST p ps E H). rewrite G2 in C; [discriminate|]. rewrite Forall_forall in ST.
  apply Forall_forall. intros l I. apply in_doc in I as [(q & I1 & I2)|[I|(c & x & -> & I)]].
  - apply ST. apply in_or_app. left. apply in_concat. exists (up_before q). split; [apply in_map; exact I1|exact I2].
  - apply ST. apply in_or_app. auto.
  - intros [y EE]. injection EE as -> _. vm_compute in I. intuition discriminate.
Qed.
Lemma loose_format d g : loose_ok d -> g <> Perforce -> (forall p ps, ud_files d = p :: ps -> g = CVSDiff -> up_stamp1 p <> []) ->
  determine_format g (doc_clean d) = Unified.
Proof.
  intros [OK SO _ Q _ _] G S. unfold doc_clean. destruct (ud_files d) as [|p ps]; [congruence|].
  specialize (Q p ps eq_refl). specialize (S p ps eq_refl). inversion_clear OK as [|? ? [B O _ S1 _ _ _] _].
  cbn [map concat]. rewrite patch_cleaned, <- !app_assoc.
  induction B as [|l ls [_ HL _ _] B IH].
  - cbn [app determine_format]. rewrite header_format by assumption. reflexivity.
  - inversion_clear Q as [|? ? Ql Q']. cbn [app determine_format]. rewrite quiet_format by assumption. now apply IH.
Qed.
(** Whatever stands between the files, every file is read as printed; and the diff is called malformed exactly if a gap is strange. *)
Theorem C106_between_the_files :
  forall sort d, (forall l, Permutation (sort l) l) -> loose_ok d ->
  exists o, parse sort (split_lines (doc_text d)) = Ok o /\ po_format o = Unified /\
    (po_malformed o = true <-> Exists strange_gap (gaps d)) /\
    exists ms, Permutation (the_models (po_models o)) ms /\ Forall2 patch_is (ud_files d) ms.
Proof.
  intros sort d HP OK. unfold doc_text. rewrite split_whole by now apply loose_whole.
  destruct (loose_generator d OK) as [G ST].
  assert (FO : folded (doc_lines d) (doc_clean d)).
  { destruct OK as [A _ B _ _ _]. unfold doc_lines, doc_clean. apply folded_app; [|now apply folded_between].
    apply folded_concat. eapply Forall_impl; [|exact A]. exact folded_patch. }
  destruct (clean_folded _ _ FO [] 0) as [n EC].
  assert (EF : determine_format (determine_generator (doc_lines d)) (doc_clean d) = Unified) by now apply loose_format.
  assert (GE : gaps d = tl (map up_before (ud_files d) ++ [ud_after d])).
  { unfold gaps. destruct OK as [_ SO _ _ _ _]. destruct (ud_files d); [congruence|reflexivity]. }
  destruct (loose_forward (determine_generator (doc_lines d)) (ud_files d) G (S (length (doc_clean d))) (ud_after d) [] false) as (new & rest & E & F).
  - destruct OK; assumption.
  - destruct OK; assumption.
  - rewrite <- GE. destruct OK as [A SO B _ NH _]. unfold gaps in *. destruct (ud_files d) as [|p ps]; [congruence|].
    rewrite Forall_forall in *. intros g I. split; [|now apply NH]. apply in_app_or in I as [I|[<-|[]]]; [|now apply Forall_forall].
    apply in_map_iff in I as (q & <- & I). destruct (A q (or_intror I)); assumption.
  - unfold doc_clean. rewrite app_length.
    enough (forall l, (length l <= length (concat (map patch_clean l)))%nat) as K by (specialize (K (ud_files d)); unfold str, chr in *; lia).
    induction l as [|p l IH]; cbn [map concat length]; [lia|]. rewrite app_length, patch_cleaned, !app_length. cbn [length]. lia.
  - unfold parse. unfold clean_up_crap. rewrite EC. cbn [bind rev app]. unfold base_parse. rewrite EF.
    unfold parse_unified. fold (doc_clean d) in E. rewrite E. cbn [bind app orb].
    eexists. split; [reflexivity|]. cbn [po_malformed po_format po_models]. split; [reflexivity|].
    split.
    + rewrite <- GE. rewrite existsb_exists, Exists_exists. split; intros (g & I & S); exists g; (split; [exact I|now apply strange_spec]).
    + exists new. split; [|exact F]. rewrite the_models_sort. apply HP.
Qed.
Print Assumptions C106_between_the_files.
(** So two documents with the same files and other lines between them show the same files. *)
Theorem C106_same_files :
  forall sort d e, (forall l, Permutation (sort l) l) -> loose_ok d -> loose_ok e ->
  Forall2 (fun p q => with_no_before p = with_no_before q) (ud_files d) (ud_files e) ->
  exists o o' ms ms', parse sort (split_lines (doc_text d)) = Ok o /\ parse sort (split_lines (doc_text e)) = Ok o' /\
    Permutation (the_models (po_models o)) ms /\ Permutation (the_models (po_models o')) ms' /\
    Forall2 patch_is (ud_files d) ms /\ Forall2 patch_is (ud_files d) ms'.
Proof.
  intros sort d e HP OK OK' F. destruct (C106_between_the_files sort d HP OK) as (o & E & _ & _ & ms & P & FM).
  destruct (C106_between_the_files sort e HP OK') as (o' & E' & _ & _ & ms' & P' & FM').
  exists o, o', ms, ms'. repeat split; try assumption. clear -F FM'. revert ms' FM'.
  induction F as [|p q ps qs H F IH]; intros ms' FM'; inversion FM' as [|? m ? ms'' PI FM'']; subst; constructor; [|now apply IH].
  destruct p, q. cbn in H. injection H as <- <- <- <- <- <- <-. exact PI.
Qed.
Print Assumptions C106_same_files.

(** What Subversion prints: after the first file a change of a property, and another file. *)
Definition svn_file (before : list string) (name : string) (a : Z) (s : list seg) : upatch :=
  mk_up (map nl (before ++ [String.append "Index: " name; "==================================================================="%string]))
    (lit name) (lit name) (lit "(revision 1)") (lit "(working copy)") None None [mk_uh a a true true [] s].
Definition svn_doc : udoc := mk_ud
  [svn_file [] "a" 1 [Chg [nl "p"] [nl "q"]];
   svn_file [""; "Property changes on: a"; "___________________________________________________________________"; "Added: svn:executable"; "   + *"; ""]%string "b" 3 [Ctx [nl "x"]; Chg [nl "y"] []]] [].
Definition plain_svn : udoc := mk_ud
  [svn_file [] "a" 1 [Chg [nl "p"] [nl "q"]]; svn_file [] "b" 3 [Ctx [nl "x"]; Chg [nl "y"] []]] [].
Example C106_example : loose_ok svn_doc /\ loose_ok plain_svn /\
  Forall2 (fun p q => with_no_before p = with_no_before q) (ud_files svn_doc) (ud_files plain_svn) /\
  summary (parse (fun l => l) (split_lines (doc_text svn_doc))) =
    Some ([[(Change, [nl "p"], [nl "q"])]; [(Unchanged, [nl "x"], [nl "x"]); (Delete, [nl "y"], [])]], true) /\
  summary (parse (fun l => l) (split_lines (doc_text plain_svn))) =
    Some ([[(Change, [nl "p"], [nl "q"])]; [(Unchanged, [nl "x"], [nl "x"]); (Delete, [nl "y"], [])]], false).
Proof.
  assert (B : forall p s, starts_with (lit p) (nl s) = false -> ~ begins p (nl s)).
  { intros p s H. intros [x E]. rewrite E in H. rewrite (proj2 (PHeaders.starts_with_app _ _) (ex_intro _ x eq_refl)) in H. discriminate. }
  assert (W : forall s, negb (existsb (N.eqb NL) (lit s)) = true -> starts_with (lit "--- ") (nl s) = false ->
     starts_with (lit "==== ") (nl s) = false -> starts_with (lit "\ No newline") (nl s) = false -> between_line (nl s)).
  { intros s H1 H2 H3 H4. split; [exists (lit s); split; [reflexivity|now apply no_nl_lit]|now apply B|now apply B|].
    intros [x E]. rewrite E in H4. vm_compute in H4. discriminate. }
  assert (N : forall s, lit s <> [] -> existsb (N.eqb TAB) (lit s) = false -> existsb (N.eqb NL) (lit s) = false -> name_ok (lit s)).
  { intros s H1 H2 H3. split; [exact H1|]. split; intros I.
    - rewrite (proj2 (existsb_exists _ _) (ex_intro _ TAB (conj I eq_refl))) in H2. discriminate.
    - rewrite (proj2 (existsb_exists _ _) (ex_intro _ NL (conj I eq_refl))) in H3. discriminate. }
  assert (PO : forall p, Forall between_line (up_before p) -> name_ok (up_old p) -> name_ok (up_new p) -> stamp_ok (up_stamp1 p) (up_more1 p) ->
    stamp_ok (up_stamp2 p) (up_more2 p) -> Forall hunk_ok (up_hunks p) -> Exists (fun h => Exists (fun s => match s with Chg _ _ => True | Ctx _ => False end) (uh_segs h)) (up_hunks p) -> patch_ok p)
    by (intros; split; assumption).
  assert (QU : forall s c d x, nl s = c :: d :: x -> starts_with (lit "*** ") (nl s) = false -> is_digit c = false -> is_digit d = false -> quiet (nl s)).
  { intros s c d x E H1 H2 H3. split; [now apply B|]. rewrite E. split; [intros ? ? X; injection X as <- <-; exact H2|intros ? ? ? X _; injection X as <- <- <-; exact H3]. }
  split; [|split; [|split; [|split; vm_compute; reflexivity]]].
  1-2: split;
    [ repeat (apply Forall_cons || apply Forall_nil); (apply PO; cbn [up_before up_old up_new up_stamp1 up_stamp2 up_more1 up_more2 up_hunks svn_file map app];
        [ repeat apply Forall_cons; try apply Forall_nil; apply W; reflexivity
        | apply N; [discriminate|reflexivity|reflexivity]
        | apply N; [discriminate|reflexivity|reflexivity]
        | unfold stamp_ok; vm_compute; intuition discriminate
        | unfold stamp_ok; vm_compute; intuition discriminate
        | apply Forall_cons; [|apply Forall_nil]; split; try (vm_compute; intuition discriminate); cbn [uh_segs src_lines dst_lines]; repeat constructor; cbn [src_lines dst_lines];
          try (apply nl_line; reflexivity); try (intros [? ?]; discriminate)
        | apply Exists_cons_hd; cbn [uh_segs]; first [apply Exists_cons_hd; exact I|apply Exists_cons_tl, Exists_cons_hd; exact I] ])
    | discriminate
    | apply Forall_nil
    | intros p ps E; injection E as <- <-; repeat apply Forall_cons; try apply Forall_nil; eapply QU; reflexivity
    | cbn [gaps ud_files svn_doc plain_svn map app up_before svn_file ud_after]; repeat apply Forall_cons; try apply Forall_nil; intros l ls E; try discriminate E; injection E as <- _; apply B; reflexivity
    | intros p ps E S; injection E as <- <-; discriminate S ].
  repeat constructor.
Qed.
