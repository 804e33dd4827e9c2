(** C79: working with the same two files again and again. *)
From Coq Require Import String Permutation.
From Verif Require Import Base QtStr Diff Save Parser SpecHistory SpecPatch SpecParse SpecText SpecUnified Blend SpecBlend SpecWorkflow Info ModelList SpecList World SpecWorld Rounds SpecRounds
  PropsText PEditLines PUnifiedDoc PropsUnified PropsRecreate PBlend PSave PropsBlend PWorkflow PropsWorkflow PModelState PList PListOpen PropsList PKin PWorld PropsWorld.
From Verif Require PLevTable.
Local Open Scope Z_scope.

Lemma in_part_one s old A hs R : in_part s old A hs R -> forall R', in_part s old A hs R' -> R = R'.
Proof.
  induction 1 as [s same|s same A h hs f1 f2 R E1 E2 I IH]; intros R' I'; [now inversion I'|].
  inversion I' as [|? same' A' h' hs' g1 g2 R2 X1 X2 I2 Y1 Y2 Y3 Y4 Y5]; subst. assert (L : length same' = length same) by (unfold count in *; lia).
  apply app_same_length in Y3 as [-> Y3]; [|exact L]. apply app_inv_head in Y3. subst A'. apply app_same_length in Y2 as [-> ->]; [|congruence]. now rewrite (IH _ I2).
Qed.
Lemma mixture_one A hs old t t' : mixture A hs old t -> mixture A hs old t' -> t = t'.
Proof. intros (R & I & ->) (R' & I' & ->). f_equal. eapply in_part_one; eauto. Qed.
Lemma run_lops_info ops : forall s s', run_lops s ops = Ok s' -> ml_info s' = ml_info s.
Proof.
  induction ops as [|o ops IH]; intros s s' H; cbn [run_lops] in H; [now injection H as <-|]. step H. rewrite (IH _ _ H). apply (pres_run _ _ _ E).
Qed.
(** What the list shows before and after. *)
Definition stands (s : mlist) (rw : bool) (w : option view) : Prop :=
  ml_rw s = rw /\ match w with Some v => shows s v | None => model_count s = 0 end.
Lemma start_ok s i src dst sw : ml_info s = Some i -> compares i src dst ->
  exists s1 j, start_round s sw = Ok s1 /\ ml_process s1 = true /\ ml_info s1 = Some j /\ ml_rw s1 = ml_rw s /\ model_count s1 = 0 /\
    compares j (if sw then dst else src) (if sw then src else dst).
Proof.
  intros I [C1 C2 C3 C4 C5]. unfold start_round. assert (G : forall s, ml_process (compare_mode s) = true /\ ml_info (compare_mode s) = ml_info s /\ ml_rw (compare_mode s) = ml_rw s /\ model_count (compare_mode s) = 0).
  { clear. intros s. unfold compare_mode, clear, model_count. destruct (ml_models s) eqn:E; cbn; rewrite ?E; auto. }
  destruct sw.
  - unfold the_info. rewrite I. cbn [bind]. unfold swap, the_info, slot_kompare_info. cbn [with_info ml_info bind].
    assert (M : in_mode (swap_source_with_destination i) = ComparingFiles) by (destruct i; exact C1). rewrite M.
    destruct (G (with_info s (Some (swap_source_with_destination i)))) as (G1 & G2 & G3 & G4). eexists _, _. split; [reflexivity|]. split; [exact G1|]. split; [exact G2|]. split; [exact G3|]. split; [exact G4|].
    destruct i. cbn in *. subst. split; reflexivity.
  - unfold refresh, the_info. rewrite I. cbn [bind]. destruct (G s) as (G1 & G2 & G3 & G4). eexists _, _. split; [reflexivity|]. split; [exact G1|]. split; [rewrite G2; exact I|]. split; [exact G3|]. split; [exact G4|]. split; assumption.
Qed.
(** Whatever the number of rounds, of refreshes and of exchanges of the sides, the two files hold what the rounds say and the list
    shows what they say; no other file is touched. *)
Theorem C79_rounds :
  forall o s i src dst rw w f rs f' w', (forall l, Permutation (os_sort o l) l) -> src <> dst ->
  os_is_dir o src = false -> os_is_dir o dst = false -> os_is_file o src = true -> os_is_file o dst = true ->
  ml_info s = Some i -> compares i src dst -> stands s rw w -> rounds src dst rw w f rs f' w' ->
  exists s' f'', run_rounds o s f rs = Ok (s', f'') /\ (forall u, text_at f'' u = text_at f' u) /\
    ml_rw s' = match w' with Some v => v_rw v | None => ml_rw s' end /\ match w' with Some v => shows s' v | None => model_count s' = 0 end.
Proof.
  intros o s i src dst rw w f rs f' w' HP NE D1 D2 F1 F2 I C ST R.
  assert (G : forall fm, (forall u, text_at fm u = text_at f u) -> exists s' f'', run_rounds o s fm rs = Ok (s', f'') /\ (forall u, text_at f'' u = text_at f' u) /\
     ml_rw s' = match w' with Some v => v_rw v | None => ml_rw s' end /\ match w' with Some v => shows s' v | None => model_count s' = 0 end).
  { revert s i NE D1 D2 F1 F2 I C ST. induction R as [src dst rw w f|src dst a b rw w f sw d p A B ops v f1 rs f' w' AB LA LB OK DF P FE FS V MX FR R IH|src dst a b rw w f sw ops rs f' w' AB EQ R IH]; intros s i NE D1 D2 F1 F2 I C [ST1 ST2] fm FM.
    - exists s, fm. split; [reflexivity|]. split; [exact FM|]. destruct w as [v|]; auto. split; [apply (sh_rw _ _ ST2)|exact ST2].
    - destruct (start_ok s i src dst sw I C) as (s1 & j & E1 & P1 & I1 & W1 & M1 & C1).
      assert (AB' : (if sw then dst else src) = a /\ (if sw then src else dst) = b) by (destruct sw; injection AB as -> ->; auto). destruct AB' as [EA EB]. rewrite EA, EB in C1. destruct C1 as [J1 J2 J3 J4 J5].
      assert (SD : os_is_dir o a = false /\ os_is_file o a = true /\ os_is_dir o b = false /\ os_is_file o b = true /\ a <> b) by (destruct sw; rewrite <- EA, <- EB; repeat split; auto using not_eq_sym). destruct SD as (DA & FA & DB & FB & NAB).
      destruct (C62_destination_file_is_the_saved_mixture (outside_on o fm) s1 j NormalExit [] d p A B fm HP OK DF P1 I1 J1) as (s2 & E2 & S2 & K).
      { now rewrite J3. } { now rewrite J3. } { rewrite J3. cbn [outside_on os_read]. now rewrite FM. } { exact P. } { rewrite J4, FM. symmetry. apply (lt_whole _ _ LB). }
      assert (FI : Forall (fits j) ops).
      { apply Forall_forall. intros q IN. destruct q; cbn [fits]; try exact Logic.I; rewrite J1; cbn; [eapply FE; exact IN|intros k; eapply FS; exact IN]. }
      rewrite W1, ST1 in K. destruct (K ops v FI V) as (s3 & fm' & E3 & E3' & S3 & MX3 & _ & FR3). rewrite J4 in MX3, FR3.
      assert (I2 : exists j2, ml_info s2 = Some j2 /\ compares j2 a b).
      { destruct (doc_models (os_sort o) d HP OK) as (po & ms & order & EP & EM & _). destruct (process_ok (outside_on o fm) s1 po ms j NormalExit (doc_text d) [] P1 I1 (conj HP (conj EP EM))) as (s2' & E2' & _ & _ & _ & I2' & _).
        rewrite E2 in E2'. injection E2' as <-. eexists. split; [exact I2'|]. split; assumption. }
      destruct I2 as (j2 & I2 & C2). pose proof (run_lops_info _ _ _ E3') as I3. rewrite I2 in I3.
      destruct (IH s3 j2 NAB DA DB FA FB I3 C2) with (fm := fm') as (s' & f'' & E & T & SW & SH).
      { split; [apply (sh_rw _ _ S3)|exact S3]. }
      { intros u. destruct (list_eq_dec N.eq_dec u b) as [->|N]; [eapply mixture_one; eauto|]. unfold text_at. rewrite FR3 by exact N. change (text_at fm u = text_at f1 u). rewrite FM. symmetry. auto. }
      exists s', f''. split; [|auto]. cbn [run_rounds]. unfold run_round. cbn [ro_swap ro_result ro_ops]. rewrite E1. cbn [bind]. change (process_success 1 NormalExit) with true. rewrite E2. cbn [bind]. rewrite E3. exact E.
    - destruct (start_ok s i src dst sw I C) as (s1 & j & E1 & P1 & I1 & W1 & M1 & C1).
      assert (AB' : (if sw then dst else src) = a /\ (if sw then src else dst) = b) by (destruct sw; injection AB as -> ->; auto). destruct AB' as [EA EB]. rewrite EA, EB in C1.
      assert (SD : os_is_dir o a = false /\ os_is_file o a = true /\ os_is_dir o b = false /\ os_is_file o b = true /\ a <> b) by (destruct sw; rewrite <- EA, <- EB; repeat split; auto using not_eq_sym). destruct SD as (DA & FA & DB & FB & NAB).
      destruct (C50_files_identical (outside_on o fm) s1 [] [] P1) as (s2 & E2 & ->).
      destruct (IH (with_process (emit (Error Identical) s1) false) j NAB DA DB FA FB I1 C1) with (fm := fm) as (s' & f'' & E & T & SW & SH).
      { split; [cbn; congruence|exact M1]. } { exact FM. }
      exists s', f''. split; [|auto]. cbn [run_rounds]. unfold run_round. cbn [ro_swap ro_result ro_ops]. rewrite E1. cbn [bind]. rewrite E2. cbn [bind]. exact E. }
  now apply G.
Qed.
Print Assumptions C79_rounds.

(** * Cases *)
Definition small_doc (before : str) (h : uhunk) (a b : string) : udoc := mk_ud [mk_up [before] (lit a) (lit b) (lit "2020") (lit "2021") None None [h]] [].
Definition first_hunk : uhunk := mk_uh 1 1 false false [] [Ctx [nl "one"]; Chg [nl "two"] [nl "zwei"]; Ctx [nl "three"]; Chg [] [nl "vier"]].
Definition second_hunk : uhunk := mk_uh 1 1 false false [] [Ctx [nl "one"; nl "two"; nl "three"]; Chg [nl "vier"] []].
Definition first_doc : udoc := small_doc (nl "diff -u /old /new") first_hunk "/old" "/new".
Definition second_doc : udoc := small_doc (nl "diff -u /new /old") second_hunk "/new" "/old".
Lemma small_ok before h a b : In before [nl "diff -u /old /new"; nl "diff -u /new /old"] -> In h [first_hunk; second_hunk] -> In a ["/old"; "/new"]%string -> In b ["/old"; "/new"]%string -> doc_ok (small_doc before h a b).
Proof.
  assert (IN : forall c s, existsb (N.eqb c) s = false -> ~ In c s).
  { intros c s H I. rewrite (proj2 (existsb_exists _ _) (ex_intro _ c (conj I (N.eqb_refl c)))) in H. discriminate. }
  assert (TL : forall s, ~ In NL (lit s) -> (N.of_nat (length (nl s)) < 65534)%N -> text_line (nl s)) by (intros s N L; exists (lit s); split; [exact N|]; split; [right; reflexivity|exact L]).
  assert (BL : forall s, ~ In NL (lit s) -> (exists x, lit s = lit "diff " ++ x) -> between_line (nl s)).
  { intros s N (x & E). unfold nl. rewrite E in *. split; [exists (lit "diff " ++ x); auto|..]; intros Q; destruct Q as (y & Q); discriminate Q. }
  intros HB HH HA HN. assert (B1 : between_line before /\ SpecUnified.quiet before).
  { destruct HB as [<-|[<-|[]]]; (split; [apply BL; [apply IN; reflexivity|eexists; reflexivity]|]); (split; [intros (x & Q); discriminate Q|]; split; [intros c x Q; injection Q as <- _; reflexivity|intros c d x Q; injection Q as <- <- _; reflexivity]). }
  assert (NA : name_ok (lit a) /\ name_ok (lit b)) by (split; [destruct HA as [<-|[<-|[]]]|destruct HN as [<-|[<-|[]]]]; (split; [discriminate|split; apply IN; reflexivity])).
  assert (HO : hunk_ok h /\ Exists changes (uh_segs h)).
  { destruct HH as [<-|[<-|[]]]; (split; [split; [split; cbn; lia|split; cbn; lia|vm_compute; discriminate|vm_compute; discriminate|apply IN; reflexivity| |repeat constructor]|apply Exists_cons_tl; apply Exists_cons_hd; exact I]).
    all: repeat (apply Forall_cons; [first [split; [|split; [|intros [Q1 Q2]; discriminate]]|split]|]); try constructor; try discriminate; try (repeat (apply Forall_cons; [apply TL; [apply IN; reflexivity|reflexivity]|]); constructor).
    all: try (apply TL; [apply IN; reflexivity|reflexivity]). all: try (repeat (apply Forall_cons; [apply TL; [apply IN; reflexivity|reflexivity]|]); constructor). }
  split.
  - constructor; [|constructor]. split; try apply NA; try (split; [apply IN; reflexivity|split; [apply IN; reflexivity|exact I]]).
    + constructor; [apply B1|constructor].
    + constructor; [apply HO|constructor].
    + apply Exists_cons_hd. apply HO.
  - discriminate.
  - constructor.
  - intros p ps E. injection E as <- _. constructor; [apply B1|constructor].
  - intros p ps E. injection E as _ <-. constructor; [|constructor]. intros l ls Q. discriminate.
  - intros p ps E Q. injection E as <- _. discriminate Q.
Qed.
(** Round one: of the two changes the first is taken back and saved. Round two: the sides are exchanged, and the line that is left
    over goes into the old file. Round three: the files are the same. *)
Definition three_rounds : list round :=
  [mk_round false (Some first_doc) [LActApply; LSave good]; mk_round true (Some second_doc) [LApplyAll true; LSaveAll (fun _ => good)]; mk_round false None []].
Definition disk_of (a b : list str) : files := fun u => if str_eqb u (lit "/old") then Some (concat a) else if str_eqb u (lit "/new") then Some (concat b) else None.
Definition merged : list str := map nl ["one"; "two"; "three"; "vier"]%string.
Definition old_lines : list str := map nl ["one"; "two"; "three"]%string.
Definition new_lines : list str := map nl ["one"; "zwei"; "three"; "vier"]%string.
Example C79_example :
  rounds (lit "/old") (lit "/new") true None (disk_of old_lines new_lines) three_rounds (disk_of merged merged) None /\
  compares two_urls (lit "/old") (lit "/new") /\ stands (slot_kompare_info (new_mlist true) two_urls) true None /\
  match run_rounds here (slot_kompare_info (new_mlist true) two_urls) (disk_of old_lines new_lines) three_rounds with
  | Ok (s, f) => text_at f (lit "/old") = concat merged /\ text_at f (lit "/new") = concat merged
  | _ => False
  end.
Proof.
  assert (L : forall ls, split_lines (concat ls) = ls -> lines_of_text (concat ls) ls) by (intros ls E; now apply C01_split_lossless).
  split; [|split; [split; reflexivity|split; [split; reflexivity|vm_compute; auto]]].
  eapply (rs_diff _ _ (lit "/old") (lit "/new") true None _ false first_doc _ old_lines new_lines _ _ (disk_of old_lines merged)); [reflexivity|apply L; reflexivity|apply L; reflexivity| |reflexivity| | | |vm_compute; reflexivity| | |].
  - apply small_ok; cbn; auto.
  - apply (pt_hunk true 1 1 [] [] [] first_hunk []); [discriminate|reflexivity|reflexivity|apply (pt_end false _ _ [])].
  - intros e [Q|[Q|[]]]; [discriminate|injection Q as <-; reflexivity].
  - intros e k [Q|[Q|[]]]; discriminate.
  - exists merged. split; [|reflexivity]. apply (ip_hunk 1 [] [] first_hunk [] [true; false] [] []); [reflexivity|reflexivity|apply (ip_end _ [])].
  - intros u N. unfold text_at, disk_of. destruct (str_eqb u (lit "/old")); [reflexivity|]. destruct (str_eqb u (lit "/new")) eqn:Q; [|reflexivity]. apply PLevTable.str_eqb_ok in Q. congruence.
  - cbn [v_rw]. eapply (rs_diff _ _ (lit "/new") (lit "/old") true _ _ true second_doc _ merged old_lines _ _ (disk_of merged merged)); [reflexivity|apply L; reflexivity|apply L; reflexivity| |reflexivity| | | |vm_compute; reflexivity| | |].
    + apply small_ok; cbn; auto.
    + apply (pt_hunk true 1 1 [] [] [] second_hunk []); [discriminate|reflexivity|reflexivity|apply (pt_end false _ _ [])].
    + intros e [Q|[Q|[]]]; discriminate.
    + intros es k [Q|[Q|[]]]; [discriminate|injection Q as <-; reflexivity].
    + exists merged. split; [|reflexivity]. apply (ip_hunk 1 [] [] second_hunk [] [true] [] []); [reflexivity|reflexivity|apply (ip_end _ [])].
    + intros u N. unfold text_at, disk_of. destruct (str_eqb u (lit "/old")) eqn:Q; [|reflexivity]. apply PLevTable.str_eqb_ok in Q. congruence.
    + cbn [v_rw]. eapply (rs_same _ _ (lit "/new") (lit "/old")); [reflexivity|reflexivity|]. apply rs_end.
Qed.
