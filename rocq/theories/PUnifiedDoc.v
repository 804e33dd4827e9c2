(** Unified hunks and files on any input. *)
From Coq Require Import String Permutation.
From Verif Require Import Base QtStr Lev Diff Regex Patterns Parser SpecEdit SpecInline SpecPatch SpecParse
  PRegex PLev PHistory PEditLines PParse PUnified PHeaders PFileHeads.
Local Open Scope Z_scope.

Lemma linked_context d : is_context (linked d) = is_context d.
Proof. unfold linked, is_context. destruct (d_type d) eqn:E; cbn; rewrite ?E; reflexivity. Qed.
Lemma linked_fields d : d_type (linked d) = d_type d /\ d_src (linked d) = d_src d /\ d_dst (linked d) = d_dst d /\
  d_track (linked d) = d_track d /\ d_slines (linked d) = d_slines d /\ d_dlines (linked d) = d_dlines d.
Proof. unfold linked. destruct (dtype_eqb _ _); repeat split. Qed.
Lemma linked_printed d : printed (linked d) = printed d.
Proof.
  unfold printed. rewrite linked_context. destruct (linked_fields d) as (_ & _ & _ & _ & -> & ->). reflexivity.
Qed.
Lemma linked_typed d : well_typed d -> well_typed (linked d).
Proof. unfold well_typed. destruct (linked_fields d) as (-> & _ & _ & _ & -> & ->). auto. Qed.
Lemma linked_pristine d : raw d -> pristine (linked d).
Proof.
  intros (A & B & C & D). unfold pristine. rewrite linked_context. unfold linked, is_context.
  destruct (d_type d); cbn; auto.
Qed.
Lemma linked_contiguous ds : forall a b, contiguous a b ds -> contiguous a b (map linked ds).
Proof.
  induction ds as [|d ds IH]; intros a b; cbn; [auto|]. intros (A & B & C & D).
  destruct (linked_fields d) as (_ & -> & -> & -> & -> & ->). auto.
Qed.
Lemma linked_all_printed ds : concat (map printed (map linked ds)) = concat (map printed ds).
Proof. rewrite map_map. f_equal. apply map_ext. intros; apply linked_printed. Qed.

Lemma deref_all_grow st l ds more : deref_all st l = Ok ds -> deref_all (st ++ more) l = Ok ds.
Proof.
  intros H. rewrite <- H. apply deref_all_ext. intros i Hi. apply nth_error_app1.
  eapply deref_all_lt; eauto.
Qed.
Lemma ids_from_listed ds : forall n,
  map fst (filter (fun q => negb (is_context (snd q))) (combine (seq n (length ds)) (map linked ds))) = ids_from n ds.
Proof.
  induction ds as [|d ds IH]; intros n; [reflexivity|]. cbn [length seq map combine filter ids_from snd]. rewrite linked_context.
  unfold is_context at 1. destruct (d_type d); cbn [negb dtype_eqb map fst]; now rewrite IH.
Qed.
Lemma contents_add m hs a b f ds : contents m hs ->
  contents (with_contents m
        (dm_hunks m ++ [mk_hunk a b f HNormal (seq (length (dm_store m)) (length ds))])
        (dm_diffs m ++ ids_from (length (dm_store m)) ds)
        (dm_store m ++ map linked ds))
    (hs ++ [(mk_hunk a b f HNormal (seq (length (dm_store m)) (length ds)), map linked ds)]).
Proof.
  intros [[H1 H2 H3 H4 HS HO] H5]. split; [split|].
  - rewrite map_app. cbn. now rewrite H1.
  - apply Forall_app. split.
    + eapply Forall_impl; [|exact H2]. intros [h d] E. cbn in *. now apply deref_all_grow.
    + constructor; [|constructor]. cbn.
      rewrite <- (app_nil_r (map linked ds)) at 1. rewrite <- (map_length linked ds). apply deref_seq_mid.
  - cbn [with_contents dm_store dm_diffs]. rewrite deref_all_app, (deref_all_grow _ _ _ _ H3). cbn [bind].
    rewrite <- (app_nil_r (map linked ds)) at 1.
    rewrite (deref_ids (length (dm_store m)) ds (dm_store m) eq_refl []). cbn [bind].
    rewrite map_app, concat_app, filter_app. cbn. rewrite app_nil_r. reflexivity.
  - cbn. apply nodup_app; [exact H4|apply ids_from_nodup|].
    intros i Hi Hj. apply ids_from_range in Hj. pose proof (deref_all_lt _ _ _ H3 i Hi). lia.
  - cbn. rewrite map_app, concat_app, <- HS. cbn. rewrite app_nil_r. f_equal. unfold listed_of. cbn [fst snd h_diffs].
    symmetry. apply ids_from_listed.
  - rewrite map_app, concat_app. cbn. rewrite app_nil_r. apply nodup_app; [exact HO|apply seq_NoDup|].
    intros i Hi Hj. apply in_seq in Hj. apply in_concat in Hi as (l & Hl & Hi). apply in_map_iff in Hl as (q & <- & Hq).
    rewrite Forall_forall in H2. pose proof (deref_all_lt _ _ _ (H2 q Hq) i Hi). lia.
  - exact H5.
Qed.

Lemma unified_hunk_body_ok c l ls m m' ls' hs :
  full_match unified_hunk_header l = Some c -> contents m hs ->
  unified_hunk_body c ls m = Ok (m', ls') ->
  exists body new, ls = body ++ ls' /\ hunks_from (l :: body) new /\ contents m' (hs ++ new) /\
    (forall st, with_contents m' [] [] st = with_contents m [] [] st).
Proof.
  intros HM HC HB. apply unified_hunk_header_inv in HM as (n1 & k1 & n2 & k2 & sep & f & -> & D1 & D2 & HS & HF & K1 & K2 & C1 & C4 & C7).
  assert (K1' : captured 3 c = [] /\ k1 = [] \/ digit_string (captured 3 c) /\ k1 = lit "," ++ captured 3 c) by tauto.
  assert (K2' : captured 6 c = [] /\ k2 = [] \/ digit_string (captured 6 c) /\ k2 = lit "," ++ captured 6 c) by tauto.
  destruct (hunk_side_side n1 k1 D1) as [S1 S1N]. destruct (hunk_side_side n2 k2 D2) as [S2 S2N].
  unfold unified_hunk_body in HB. rewrite C1, C4 in HB.
  destruct (hunk_side n1 (captured 3 c)) as [[a ca]|] eqn:E1.
  - destruct (hunk_side n2 (captured 6 c)) as [[b cb]|] eqn:E2.
    + destruct (unified_body_loop _ _) as [[ds rest]| |] eqn:EL; try discriminate. cbn [bind] in HB.
      rewrite add_parsed_hunk_ok in HB. cbn [bind] in HB. injection HB as <- <-.
      apply unified_body_ok in EL as (R & CT & W & RW). cbn [uc_rest uc_a uc_b] in R, CT.
      rewrite C7.
      exists (concat (map printed ds)), [(mk_hunk a b f HNormal (seq (length (dm_store m)) (length ds)), map linked ds)].
      split; [exact R|]. split.
      * rewrite <- linked_all_printed, <- (app_nil_r (concat _)).
        apply hf_hunk with (a := a) (b := b) (f := f); try reflexivity.
        -- constructor; [exact (S1 _ _ E1 K1')|exact (S2 _ _ E2 K2')|exact HS|exact HF].
        -- now apply linked_contiguous.
        -- apply Forall_map. eapply Forall_impl; [|exact W]. exact linked_typed.
        -- apply Forall_map. eapply Forall_impl; [|exact RW]. exact linked_pristine.
        -- constructor.
      * split; [apply contents_add; exact HC|reflexivity].
    + injection HB as <- <-. exists [], []. split; [reflexivity|]. split; [|rewrite app_nil_r; auto].
      eapply hf_unreadable; [constructor; [eapply S1; eauto|eapply S2N; eauto|exact HS|exact HF]|right; reflexivity|constructor].
  - injection HB as <- <-. exists [], []. split; [reflexivity|]. split; [|rewrite app_nil_r; auto].
    destruct (hunk_side n2 (captured 6 c)) as [[b cb]|] eqn:E2.
    + eapply hf_unreadable; [constructor; [eapply S1N; eauto|eapply S2; eauto|exact HS|exact HF]|left; reflexivity|constructor].
    + eapply hf_unreadable; [constructor; [eapply S1N; eauto|eapply S2N; eauto|exact HS|exact HF]|left; reflexivity|constructor].
Qed.

Lemma hunks_from_app l1 h1 l2 h2 : hunks_from l1 h1 -> hunks_from l2 h2 -> hunks_from (l1 ++ l2) (h1 ++ h2).
Proof.
  intros K1 K2. revert K1. induction 1; cbn [app].
  - exact K2.
  - rewrite <- app_assoc. eapply hf_hunk; eauto.
  - eapply hf_unreadable; eauto.
Qed.
Lemma unified_hunks_ok fuel : forall ls m m' ls' hs,
  contents m hs -> unified_hunks fuel ls m = Ok (m', ls') ->
  exists body new, ls = body ++ ls' /\ hunks_from body new /\ contents m' (hs ++ new) /\
    (forall st, with_contents m' [] [] st = with_contents m [] [] st).
Proof.
  induction fuel as [|fuel IH]; intros ls m m' ls' hs HC H; [discriminate|]. cbn [unified_hunks] in H.
  unfold unified_hunk_header_at in H. destruct ls as [|l ls].
  { injection H as <- <-. exists [], []. rewrite (app_nil_r hs). split; [reflexivity|]. split; [apply hf_end|]. split; [exact HC|reflexivity]. }
  destruct (full_match unified_hunk_header l) as [c|] eqn:EM.
  2: { injection H as <- <-. exists [], []. rewrite (app_nil_r hs). split; [reflexivity|]. split; [apply hf_end|]. split; [exact HC|reflexivity]. }
  destruct (unified_hunk_body c ls m) as [[m1 ls1]| |] eqn:EB; try discriminate. cbn [bind] in H.
  apply (unified_hunk_body_ok _ _ _ _ _ _ _ EM HC) in EB as (b1 & n1 & -> & F1 & C1 & W1).
  apply (IH _ _ _ _ _ C1) in H as (b2 & n2 & -> & F2 & C2 & W2).
  exists ((l :: b1) ++ b2), (n1 ++ n2). rewrite (app_assoc hs) in *.
  split; [cbn [app]; rewrite <- app_assoc; reflexivity|]. split; [exact (hunks_from_app _ _ _ _ F1 F2)|].
  split; [exact C2|]. intros st. rewrite W2. apply W1.
Qed.

Lemma unified_hunks_fuel fuel : forall ls m, (length ls < fuel)%nat -> unified_hunks fuel ls m <> OutOfFuel.
Proof.
  induction fuel as [|fuel IH]; intros ls m L; [lia|]. cbn [unified_hunks].
  unfold unified_hunk_header_at. destruct ls as [|l ls]; [discriminate|].
  destruct (full_match unified_hunk_header l) as [c|]; [|discriminate]. cbn [length] in L.
  apply bind_fuel.
  - unfold unified_hunk_body. destruct (hunk_side _ _) as [[a ca]|]; [|discriminate].
    destruct (hunk_side _ _) as [[b cb]|]; [|discriminate].
    apply bind_fuel; [apply unified_body_fuel; cbn; lia|]. intros [ds rest] _.
    rewrite add_parsed_hunk_ok. discriminate.
  - intros [m1 ls1] E. apply IH. unfold unified_hunk_body in E.
    destruct (hunk_side _ _) as [[a ca]|]; [|injection E as <- <-; lia].
    destruct (hunk_side _ _) as [[b cb]|]; [|injection E as <- <-; lia].
    destruct (unified_body_loop _ _) as [[ds rest]| |] eqn:EL; try discriminate. cbn [bind] in E.
    rewrite add_parsed_hunk_ok in E. injection E as <- <-.
    apply unified_body_ok in EL as (R & _). cbn [uc_rest] in R. apply (f_equal (@length _)) in R.
    rewrite app_length in R. unfold str, chr in *. lia.
Qed.

(** * Files *)
Lemma named_contents m m' s d t1 t2 : (forall st, with_contents m' [] [] st = with_contents m [] [] st) ->
  named m s d t1 t2 -> named m' s d t1 t2.
Proof.
  intros W [A1 A2 A3 A4 A5 A6 A7 A8]. specialize (W []). destruct m, m'. cbn in *. injection W as -> -> -> -> -> -> -> -> -> -> -> -> -> ->.
  split; assumption.
Qed.
Lemma bad_next_spec header (starts : str -> Prop) ls :
  (forall l, has_match header l = true <-> starts l) -> bad_next_header header ls = true <-> unexpected starts ls.
Proof.
  intros HB. assert (SW : forall p l, starts_with p l = false <-> forall x, l <> p ++ x).
  { intros p l. rewrite <- not_true_iff_false, starts_with_app. split; [intros H x E; apply H; eauto|intros H [x E]; eapply H; eauto]. }
  unfold bad_next_header, unexpected. destruct ls as [|l ls].
  - split; [discriminate|intros (? & ? & E & _); discriminate].
  - rewrite !andb_true_iff, !negb_true_iff, !SW, <- not_true_iff_false, HB. split.
    + intros (((A & B) & C) & D). exists l, ls. repeat split; auto.
    + intros (l' & ls' & E & A & B). injection E as <- <-. repeat split; auto; intros x; apply B.
Qed.
Lemma files_ok head hunks header (starts : str -> Prop) (heading : list str -> dmodel -> Prop) :
  (forall ls m m', (forall st, with_contents m' [] [] st = with_contents m [] [] st) -> heading ls m -> heading ls m') ->
  (forall l, has_match header l = true <-> starts l) ->
  (forall ls m rest, head ls = Ok (Some m, rest) ->
     exists skip hd, ls = skip ++ hd ++ rest /\ Forall (fun l => ~ starts l) skip /\ heading hd m /\ contents m []) ->
  (forall ls rest, head ls = Ok (None, rest) -> 
     Forall (fun l => ~ starts l) ls \/
      exists skip l rest, ls = skip ++ l :: rest /\ Forall (fun l => ~ starts l) skip /\ starts l /\
        (forall hd tl m, l :: rest = hd ++ tl -> ~ heading hd m)) ->
  (forall ls m m' ls', contents m [] -> hunks ls m = Ok (m', ls') ->
     exists body new, ls = body ++ ls' /\ hunks_from body new /\ contents m' new /\
       (forall st, with_contents m' [] [] st = with_contents m [] [] st)) ->
  forall fuel ls ms bad ms' bad' rest,
  files head hunks header fuel ls ms bad = Ok (ms', bad', rest) ->
  exists new b, ms' = ms ++ new /\ bad' = (bad || b)%bool /\ files_from starts heading ls new b.
Proof.
  intros HN HB HH H0 HK. induction fuel as [|fuel IH]; intros ls ms bad ms' bad' rest H; [discriminate|].
  cbn [files] in H. destruct (head ls) as [[[m|] ls1]| |] eqn:EH; try discriminate; cbn [bind] in H.
  2: { injection H as <- <- <-. exists [], false. rewrite app_nil_r, orb_false_r. repeat (split; [reflexivity|]).
       apply H0 in EH as [F|(skip & l & r & -> & F & S & K)]; [now apply ff_end|now apply ff_stop]. }
  destruct (hunks ls1 m) as [[m2 ls2]| |] eqn:EK; try discriminate. cbn [bind] in H.
  apply HH in EH as (skip & hd & -> & FS & HS & HC).
  apply (HK _ _ _ _ HC) in EK as (body & new & -> & HF & HC2 & HW).
  apply IH in H as (more & b2 & -> & -> & HF2). unfold append_model.
  pose proof (bad_next_spec header starts ls2 HB) as HBN.
  destruct (Nat.ltb_spec 0 (length (dm_diffs m2))) as [L|L].
  - exists (m2 :: more), (bad_next_header header ls2 || b2)%bool. rewrite <- app_assoc. split; [reflexivity|].
    split; [now rewrite orb_assoc|].
    eapply ff_file; eauto. destruct (dm_diffs m2); [cbn in L; lia|discriminate].
  - exists more, (bad_next_header header ls2 || b2)%bool. split; [reflexivity|]. split; [now rewrite orb_assoc|].
    eapply ff_nothing; eauto.
    intros h ds Hin. destruct HC2 as [[_ _ C3 _ _ _] _]. destruct (dm_diffs m2); [|cbn in L; lia].
    cbn in C3. injection C3 as C3. apply Forall_forall. intros d Hd.
    destruct (is_context d) eqn:E; [reflexivity|]. exfalso.
    assert (I : In d (filter (fun d => negb (is_context d)) (concat (map snd new)))).
    { apply filter_In. split; [|now rewrite E]. apply in_concat. exists ds. split; [|exact Hd].
      apply in_map_iff. exists (h, ds). auto. }
    rewrite <- C3 in I. exact I.
Qed.
Lemma files_fuel head hunks header :
  (forall ls, head ls <> OutOfFuel) ->
  (forall ls m ls', head ls = Ok (Some m, ls') -> (length ls' < length ls)%nat) ->
  (forall ls m, hunks ls m <> OutOfFuel) ->
  (forall ls m m' ls', hunks ls m = Ok (m', ls') -> (length ls' <= length ls)%nat) ->
  forall fuel ls ms bad, (length ls < fuel)%nat -> files head hunks header fuel ls ms bad <> OutOfFuel.
Proof.
  intros H1 H2 H3 H4. induction fuel as [|fuel IH]; intros ls ms bad L; [lia|]. cbn [files].
  apply bind_fuel; [apply H1|]. intros [[m|] ls1] E; [|discriminate].
  apply bind_fuel; [apply H3|]. intros [m2 ls2] E2. apply IH.
  apply H2 in E. apply H4 in E2. lia.
Qed.

Definition starts_of (g : generator) : str -> Prop := match g with Perforce => perforce_start | _ => unified_start end.
Definition heading_of (g : generator) : list str -> dmodel -> Prop := match g with Perforce => perforce_heading | _ => unified_heading end.
Lemma unified_files_ok g fuel ls ms bad ms' bad' rest :
  files (unified_head_of g) (hunk_fuel unified_hunks) (unified_header1_of g) fuel ls ms bad = Ok (ms', bad', rest) ->
  exists new b, ms' = ms ++ new /\ bad' = (bad || b)%bool /\ files_from (starts_of g) (heading_of g) ls new b.
Proof.
  apply files_ok.
  - intros l m m' W H. destruct g; cbn in *; destruct H.
    + eapply uh_intro; eauto using named_contents.
    + eapply uh_intro; eauto using named_contents.
    + eapply ph_intro; eauto using named_contents.
  - intros l. unfold has_match. assert (U : match full_match unified_header1 l with Some _ => true | None => false end = true <-> unified_start l).
    { unfold unified_start. destruct (full_match unified_header1 l) as [c|] eqn:E.
      - apply match_header_line in E as [E _]. split; eauto.
      - split; [discriminate|]. intros (p & t & H). exfalso. exact (proj1 (no_header_line "--- " l) E p t H). }
    destruct g; [exact U|exact U|]. cbn [unified_header1_of starts_of]. pose proof (perforce_match l) as P. destruct (full_match perforce_header l).
    + split; [intros _; exists (captured 1 c), (captured 2 c); exact P|reflexivity].
    + split; [discriminate|contradiction].
  - intros l m r H. destruct g; cbn in *.
    + pose proof (unified_head_ok l) as K. rewrite H in K. exact K.
    + pose proof (unified_head_ok l) as K. rewrite H in K. exact K.
    + pose proof (perforce_head_ok l) as K. injection H as H. rewrite H in K. exact K.
  - intros l r H. destruct g; cbn in *.
    + pose proof (unified_head_ok l) as K. rewrite H in K. exact K.
    + pose proof (unified_head_ok l) as K. rewrite H in K. exact K.
    + pose proof (perforce_head_ok l) as K. injection H as H. rewrite H in K. left. exact K.
  - intros l m m' l' C H. unfold hunk_fuel in H. now apply (unified_hunks_ok _ _ _ _ _ [] C) in H.
Qed.
