(** When reading a text is undefined: tables, hunks of unified diffs. *)
From Coq Require Import String Permutation.
From Verif Require Import Base QtStr Lev Diff Regex Patterns Parser SpecEdit SpecInline SpecPatch SpecParse SpecNormal SpecLines SpecCrash
  PRegex PStar PLevTable PLev PHistory PEditLines PParse PUnified PHeaders PFileHeads PUnifiedDoc PFuel PAnyInput PNormal PLines PLineChunks PLineSame PLineUnified.
Local Open Scope Z_scope.

(** * Tables *)
Lemma set_size_reject_any t m n : (limit < (N.of_nat m * N.of_nat n) mod 4294967296)%N -> set_size t m n = None.
Proof.
  unfold limit. intros H. unfold set_size, u32.
  assert (N.ltb 16777216 ((N.of_nat m * N.of_nat n) mod 4294967296) = true) as -> by lia. reflexivity.
Qed.
Lemma rejected_any t s d : (limit < area (ds_string s) (ds_string d) mod 4294967296)%N -> inline_line t s d = Ok (t, s, d).
Proof.
  intros H. unfold inline_line, create_table. cbn [sp_m sp_n string_pair length].
  rewrite set_size_reject_any; [reflexivity|]. unfold area in H.
  replace (S (length (ds_string s))) with (length (ds_string s) + 1)%nat by lia.
  replace (S (length (ds_string d))) with (length (ds_string d) + 1)%nat by lia. exact H.
Qed.
Lemma for_each_keeps {A S} (P : S -> Prop) (body : A -> S -> res S) l s s' :
  (forall x s s', P s -> body x s = Ok s' -> P s') -> P s -> for_each l body s = Ok s' -> P s'.
Proof. intros H1 H2 H3. exact (proj1 (for_each_each P body l s s' H1 H2 H3)). Qed.
Lemma fill_table_size p t t' : fill_table p t = Ok t' -> t_size t' = t_size t.
Proof.
  unfold fill_table. intros H. set (P := fun u => t_size u = t_size t).
  assert (F : forall u u', P u -> PLevTable.same_frame u u' -> P u') by (unfold P; intros u u' K (_ & _ & E); congruence).
  destruct (for_each (seq 0 (sp_m p)) _ t) as [t1| |] eqn:E1; try discriminate. cbn [bind] in H.
  destruct (for_each (seq 0 (sp_n p)) _ t1) as [t2| |] eqn:E2; try discriminate. cbn [bind] in H.
  assert (P1 : P t1) by (eapply for_each_keeps; [|reflexivity|exact E1]; intros i u u' K X; eapply F; [exact K|]; eapply set_content_frame; exact X).
  assert (P2 : P t2) by (eapply for_each_keeps; [|exact P1|exact E2]; intros i u u' K X; eapply F; [exact K|]; eapply set_content_frame; exact X).
  refine (for_each_keeps P _ _ _ _ _ P2 H). intros j u u' K X.
  refine (for_each_keeps P _ _ _ _ _ K X). intros i v v' K' X'. eapply F; [exact K'|]. eapply fill_cell_frame; exact X'.
Qed.
Lemma create_table_size t p d t' : (t_size t <= limit)%N -> create_table t p = Ok (d, t') -> (t_size t' <= limit)%N.
Proof.
  intros L H. unfold create_table in H. destruct (set_size t (sp_m p) (sp_n p)) as [t1|] eqn:E; [|injection H as _ <-; exact L].
  destruct (fill_table p t1) as [t2| |] eqn:EF; try discriminate. cbn [bind] in H. destruct (get_content _ _ _); try discriminate. cbn [bind] in H. injection H as _ <-.
  rewrite (fill_table_size _ _ _ EF). unfold set_size in E. destruct (N.ltb_spec 16777216 (u32 (N.of_nat (sp_m p) * N.of_nat (sp_n p)))) as [|K]; [discriminate|]. injection E as <-. cbn [t_size].
  destruct (N.ltb _ _); [exact K|exact L].
Qed.
Lemma inline_line_size t s d t' s' d' : (t_size t <= limit)%N -> inline_line t s d = Ok (t', s', d') -> (t_size t' <= limit)%N.
Proof.
  intros L H. unfold inline_line in H. destruct (create_table _ _) as [[dist t1]| |] eqn:E; try discriminate. cbn [bind] in H. apply create_table_size in E; [|exact L].
  destruct (Nat.eqb dist 0); [injection H as <- _ _; exact E|]. destruct (create_markers _ _ _ _) as [[m1 m2]| |]; try discriminate. cbn [bind] in H. injection H as <- _ _. exact E.
Qed.
Lemma inline_line_cases t s d : (t_size t <= limit)%N -> ds_markers s = [] -> ds_markers d = [] ->
  (wraps (ds_string s) (ds_string d) /\ exists why, inline_line t s d = UB why) \/
  (~ wraps (ds_string s) (ds_string d) /\ exists t' s' d', inline_line t s d = Ok (t', s', d')).
Proof.
  intros L M1 M2. unfold wraps.
  destruct (N.lt_ge_cases limit (area (ds_string s) (ds_string d) mod 4294967296)) as [H|H].
  { right. split; [lia|]. rewrite rejected_any by exact H. eauto. }
  destruct (N.lt_ge_cases (area (ds_string s) (ds_string d)) 4294967296) as [K|K].
  { right. split; [lia|]. rewrite N.mod_small in H by exact K. destruct (inline_line_ok t s d H M1 M2) as (t' & m1 & m2 & E & _). eauto. }
  left. split; [auto|]. destruct (wrap_ub t _ _ L K H) as (why & E). unfold inline_line. rewrite E. cbn [bind]. eauto.
Qed.
Lemma inline_lines_cases : forall sl dl t, (t_size t <= limit)%N -> length sl = length dl ->
  Forall (fun s => ds_markers s = []) sl -> Forall (fun s => ds_markers s = []) dl ->
  (wrapping (lines_of sl) (lines_of dl) /\ exists why, inline_lines t sl dl = UB why) \/
  (~ wrapping (lines_of sl) (lines_of dl) /\ exists r, inline_lines t sl dl = Ok r).
Proof.
  induction sl as [|s sl IH]; intros [|d dl] t L EL M1 M2; cbn in EL; try discriminate.
  - right. split; [|cbn; eauto]. intros (_ & i & a & b & X & _). destruct i; discriminate.
  - inversion M1 as [|? ? M1a M1b]. inversion M2 as [|? ? M2a M2b]. subst. cbn [inline_lines].
    destruct (inline_line_cases t s d L M1a M2a) as [[W (why & E)]|[W (t' & s' & d' & E)]]; rewrite E; cbn [bind].
    + left. split; [|eauto]. split; [unfold lines_of; rewrite !map_length; cbn; lia|]. exists 0%nat, (ds_string s), (ds_string d). cbn. auto.
    + apply inline_line_size in E; [|exact L]. destruct (IH dl t' E ltac:(lia) M1b M2b) as [[(X1 & i & a & b & X2 & X3 & X4) (why & EI)]|[W2 [[r1 r2] EI]]]; rewrite EI; cbn [bind].
      * left. split; [|eauto]. split; [cbn [lines_of map length] in *; unfold lines_of in *; cbn [map length]; lia|]. exists (S i), a, b. auto.
      * right. split; [|eauto]. intros (_ & [|i] & a & b & X1 & X2 & X3).
        -- cbn in X1, X2. injection X1 as <-. injection X2 as <-. contradiction.
        -- apply W2. split; [unfold lines_of; rewrite !map_length; lia|]. exists i, a, b. auto.
Qed.
Lemma inline_cases d : Forall (fun s => ds_markers s = []) (d_slines d) -> Forall (fun s => ds_markers s = []) (d_dlines d) ->
  (d_type d = Change /\ wrapping (lines_of (d_slines d)) (lines_of (d_dlines d)) /\ exists why, determine_inline d = UB why) \/
  (~ (d_type d = Change /\ wrapping (lines_of (d_slines d)) (lines_of (d_dlines d))) /\ exists d', determine_inline d = Ok d').
Proof.
  intros M1 M2. unfold determine_inline. destruct (d_type d) eqn:T; cbn [dtype_eqb negb]; try (right; split; [intros [X _]; discriminate|eauto]).
  destruct (Nat.eqb_spec (length (d_slines d)) (length (d_dlines d))) as [E|E]; cbn [negb].
  - destruct (inline_lines_cases _ _ new_table ltac:(vm_compute; discriminate) E M1 M2) as [[W (why & EI)]|[W [[r1 r2] EI]]]; rewrite EI; cbn [bind].
    + left. split; [reflexivity|]. split; [exact W|]. eauto.
    + right. split; [intros [_ X]; contradiction|eauto].
  - right. split; [|eauto]. intros [_ [X _]]. unfold lines_of in X. rewrite !map_length in X. contradiction.
Qed.
Lemma fresh_markers ts : Forall (fun s => ds_markers s = []) (map new_ds ts).
Proof. apply Forall_map, Forall_forall. reflexivity. Qed.
Lemma texts_cases sl dl a b ty :
  (ty = Change /\ wrapping sl dl /\ exists why, determine_inline (with_texts sl dl (new_diff a b ty)) = UB why) \/
  (~ (ty = Change /\ wrapping sl dl) /\ exists d, determine_inline (with_texts sl dl (new_diff a b ty)) = Ok d).
Proof.
  pose proof (inline_cases (with_texts sl dl (new_diff a b ty)) (fresh_markers sl) (fresh_markers dl)) as C.
  cbn [with_texts set_lines d_slines d_dlines d_type new_diff] in C. rewrite !lines_of_new in C. exact C.
Qed.

(** * Hunks of unified diffs *)
Lemma change_cases a b sl dl : sl <> [] \/ dl <> [] ->
  let d := (let d := more [] dl (more sl [] (new_diff a b Unchanged)) in
     if Nat.eqb (length (d_slines d)) 0 then set_type Insert d
     else if Nat.eqb (length (d_dlines d)) 0 then set_type Delete d else set_type Change d) in
  (wrapping sl dl /\ exists why, determine_inline d = UB why) \/ (~ wrapping sl dl /\ exists d', determine_inline d = Ok d').
Proof.
  intros NE. assert (E : (let d := more [] dl (more sl [] (new_diff a b Unchanged)) in
     if Nat.eqb (length (d_slines d)) 0 then set_type Insert d
     else if Nat.eqb (length (d_dlines d)) 0 then set_type Delete d else set_type Change d) = with_texts sl dl (new_diff a b (change_of sl dl))).
  { cbv zeta. rewrite more_more, app_nil_r. cbn [app]. destruct sl, dl; try reflexivity. }
  cbv zeta in *. rewrite E. assert (W : wrapping sl dl -> change_of sl dl = Change).
  { intros (_ & i & x & y & X & Y & _). destruct sl; [destruct i; discriminate|]. destruct dl; [destruct i; discriminate|]. reflexivity. }
  destruct (texts_cases sl dl a b (change_of sl dl)) as [(A & B & C)|(A & C)]; [left; auto|right]. split; [|exact C]. intros X. apply A. auto.
Qed.
Lemma counting_not ca cb : counting ca cb = false -> ca = 0 /\ cb = 0.
Proof. unfold counting. destruct (Z.eqb_spec ca 0), (Z.eqb_spec cb 0); cbn; try discriminate; auto. Qed.
Lemma run_head mark da db ca cb ls ts ca1 cb1 rest : run mark da db ca cb ls ts ca1 cb1 rest -> ts <> [] -> counting ca cb = true /\ exists t ls', ls = (mark :: t) :: ls'.
Proof. intros H N. apply run_starts in H as [A B]; [|exact N]. split; [now apply counting_iff|exact B]. Qed.
Lemma change_head ca cb ls old c1 c2 ls1 new c3 c4 ls2 : run MINUS 1 0 ca cb ls old c1 c2 ls1 -> run PLUS 0 1 c1 c2 ls1 new c3 c4 ls2 ->
  old <> [] \/ new <> [] -> counting ca cb = true /\ exists x t ls', ls = (x :: t) :: ls' /\ x <> SP /\ (x = MINUS \/ x = PLUS).
Proof.
  intros R1 R2 NE. destruct old as [|o old].
  - inversion R1 as [? ? ? S|]; subst. destruct NE as [NE|NE]; [contradiction|]. apply run_head in R2 as (A & t & ls' & ->); [|exact NE]. split; [exact A|]. exists PLUS, t, ls'. repeat split; auto. discriminate.
  - apply run_head in R1 as (A & t & ls' & ->); [|discriminate]. split; [exact A|]. exists MINUS, t, ls'. repeat split; auto. discriminate.
Qed.
Lemma counted_cases fuel : forall c, (exists why, unified_body_loop fuel c = UB why) -> counted_crash (uc_ca c) (uc_cb c) (uc_rest c).
Proof.
  induction fuel as [|fuel IH]; intros c [why H]; [discriminate|]. cbn [unified_body_loop] in H.
  destruct (uc_rest c) as [|l ls] eqn:ER; [discriminate|].
  destruct l as [|x l]; [apply cc_empty|]. cbn [matches_unified_hunk_line bind] in H.
  destruct (_ && counting (uc_ca c) (uc_cb c))%bool eqn:EC; [|discriminate].
  apply andb_prop in EC as [EM EC]. pose proof EC as EC0. apply counting_iff in EC. rewrite starts_with_hd in H.
  destruct (N.eqb_spec x SP) as [->|NS].
  - destruct (take_context _ _ _ _ _ _) as [d' c'] eqn:ET. apply run_context in ET as (ts & R & ->).
    destruct (unified_body_loop fuel c') as [[ds' rest']|w|] eqn:EL; cbn [bind] in H; try discriminate.
    eapply cc_common; [exact R|eapply run_some; eauto|]. apply IH. eauto.
  - destruct (take_removed _ _ _ _ _ _) as [d1 c1] eqn:ET1. apply run_removed in ET1 as (sl & R1 & ->).
    destruct (take_added _ _ _ _ _ _) as [d2 c2] eqn:ET2. apply run_added in ET2 as (dl & R2 & ->).
    assert (NE : sl <> [] \/ dl <> []).
    { destruct (N.eq_dec x MINUS) as [->|NM]; [left; eapply run_some; eauto|]. right.
      apply run_none in R1 as (-> & E1 & E2 & E3); [|intros t ls' X; injection X as X _ _; contradiction]. rewrite E1, E2, E3 in R2.
      assert (x = PLUS) as ->. { cbn [orb] in EM. apply orb_true_iff in EM as [EM|EM]; apply N.eqb_eq in EM; [exact EM|contradiction]. }
      eapply run_some; eauto. }
    destruct (change_cases (uc_a c) (uc_b c) sl dl NE) as [[W (w & E)]|[W (d & E)]]; cbv zeta in E.
    + eapply cc_wraps; eauto.
    + rewrite E in H. cbn [bind] in H. destruct (unified_body_loop fuel c2) as [[ds' rest']|w|] eqn:EL; cbn [bind] in H; try discriminate.
      eapply cc_changed; [exact R1|exact R2|exact NE|]. apply IH. eauto.
Qed.
Lemma counted_sound ca cb ls : counted_crash ca cb ls -> forall fuel c r, uc_ca c = ca -> uc_cb c = cb -> uc_rest c = ls -> unified_body_loop fuel c <> Ok r.
Proof.
  induction 1 as [ca cb ls|ca cb ls old k1 k2 ls1 new k3 k4 ls2 R1 R2 W|ca cb ls ts ca' cb' ls' R NE X IH|ca cb ls old k1 k2 ls1 new k3 k4 ls2 R1 R2 NE X IH];
    intros [|fuel] c r EA EB ER H; try discriminate; cbn [unified_body_loop] in H; rewrite ER in H.
  - discriminate.
  - assert (NE : old <> [] \/ new <> []) by (left; intros ->; destruct W as (_ & i & ? & ? & Y & _); destruct i; discriminate).
    destruct (change_head _ _ _ _ _ _ _ _ _ _ _ R1 R2 NE) as (CO & x & t & r' & -> & NS & XX). cbn [matches_unified_hunk_line bind] in H.
    rewrite EA, EB, CO in H. assert (EX : (N.eqb x SP || N.eqb x 43 || N.eqb x 45)%bool = true) by (destruct XX as [->| ->]; reflexivity). rewrite EX in H. cbn [andb] in H.
    rewrite starts_with_hd in H. rewrite (proj2 (N.eqb_neq x SP) NS) in H.
    destruct (take_removed _ _ _ _ _ _) as [d1 c1] eqn:ET1. apply run_removed in ET1 as (sl & Q1 & ->). destruct (unified_run_same _ _ _ _ _ _ _ _ _ _ R1 _ _ _ _ Q1) as (<- & -> & -> & ->).
    destruct (take_added _ _ _ _ _ _) as [d2 c2] eqn:ET2. apply run_added in ET2 as (dl & Q2 & ->). destruct (unified_run_same _ _ _ _ _ _ _ _ _ _ R2 _ _ _ _ Q2) as (<- & -> & -> & ->).
    destruct (change_cases (uc_a c) (uc_b c) old new NE) as [[_ (w & E)]|[W' _]]; [|contradiction]. cbv zeta in E. rewrite E in H. discriminate.
  - pose proof R as R0. apply run_head in R0 as (CO & t & r' & ->); [|exact NE]. cbn [matches_unified_hunk_line bind] in H. rewrite EA, EB, CO in H.
    rewrite starts_with_hd, N.eqb_refl in H. cbn [orb andb] in H.
    destruct (take_context _ _ _ _ _ _) as [d' c'] eqn:ET. apply run_context in ET as (ts' & Q & ->). destruct (unified_run_same _ _ _ _ _ _ _ _ _ _ R _ _ _ _ Q) as (<- & -> & -> & ->).
    destruct (unified_body_loop fuel c') as [[ds' rest']|w|] eqn:EL; cbn [bind] in H; try discriminate. eapply IH; [| | |exact EL]; reflexivity.
  - destruct (change_head _ _ _ _ _ _ _ _ _ _ _ R1 R2 NE) as (CO & x & t & r' & -> & NS & XX). cbn [matches_unified_hunk_line bind] in H.
    rewrite EA, EB, CO in H. assert (EX : (N.eqb x SP || N.eqb x 43 || N.eqb x 45)%bool = true) by (destruct XX as [->| ->]; reflexivity). rewrite EX in H. cbn [andb] in H.
    rewrite starts_with_hd in H. rewrite (proj2 (N.eqb_neq x SP) NS) in H.
    destruct (take_removed _ _ _ _ _ _) as [d1 c1] eqn:ET1. apply run_removed in ET1 as (sl & Q1 & ->). destruct (unified_run_same _ _ _ _ _ _ _ _ _ _ R1 _ _ _ _ Q1) as (<- & -> & -> & ->).
    destruct (take_added _ _ _ _ _ _) as [d2 c2] eqn:ET2. apply run_added in ET2 as (dl & Q2 & ->). destruct (unified_run_same _ _ _ _ _ _ _ _ _ _ R2 _ _ _ _ Q2) as (<- & -> & -> & ->).
    destruct (determine_inline _) as [d|w|]; cbn [bind] in H; try discriminate.
    destruct (unified_body_loop fuel c2) as [[ds' rest']|w|] eqn:EL; cbn [bind] in H; try discriminate. eapply IH; [| | |exact EL]; reflexivity.
Qed.
Lemma header_none l : full_match unified_hunk_header l = None -> forall r1 r2 f, ~ range_line l r1 r2 f.
Proof. intros E r1 r2 f X. apply range_line_match in X as (c & M & _). pose proof (eq_trans (eq_sym E) M) as Y. discriminate Y. Qed.
Lemma patches_cases fuel : forall ls m, (exists why, unified_hunks fuel ls m = UB why) -> patches_crash ls.
Proof.
  induction fuel as [|fuel IH]; intros ls m [why H]; [discriminate|]. cbn [unified_hunks] in H. unfold unified_hunk_header_at in H.
  destruct ls as [|l ls]; [discriminate|]. destruct (full_match unified_hunk_header l) as [c|] eqn:E; [|discriminate].
  pose proof (match_range_line _ _ E) as R. unfold unified_hunk_body in H.
  destruct (hunk_side (captured 1 c) (captured 3 c)) as [[a ca]|] eqn:E1; cbn [bind] in H.
  2: { eapply pc_unreadable; [exact R|auto|]. eapply IH. eauto. }
  destruct (hunk_side (captured 4 c) (captured 6 c)) as [[b cb]|] eqn:E2; cbn [bind] in H.
  2: { eapply pc_unreadable; [exact R|auto|]. eapply IH. eauto. }
  destruct (unified_body_loop _ _) as [[ds rest]|w|] eqn:EL; cbn [bind] in H; try discriminate.
  - rewrite add_parsed_hunk_ok in H. cbn [bind] in H. eapply pc_later; [exact R|apply (counted_ok _ _ _ _ EL)|]. eapply IH. eauto.
  - eapply pc_here; [exact R|]. apply (counted_cases (S (length ls)) (mk_uc ls a b ca cb)). eauto.
Qed.
Lemma patches_sound ls : patches_crash ls -> forall fuel m r, unified_hunks fuel ls m <> Ok r.
Proof.
  induction 1 as [l a ca b cb f ls R C|l r1 r2 f ls R U X IH|l a ca b cb f ls ds ls' R C X IH]; intros [|fuel] m r H; try discriminate; cbn [unified_hunks] in H; unfold unified_hunk_header_at in H.
  all: apply range_line_match in R as (c & M & E1 & E2 & _); rewrite M in H; unfold unified_hunk_body in H; rewrite E1 in H; rewrite ?E2 in H.
  - destruct (unified_body_loop _ _) as [r0|w|] eqn:EL; cbn [bind] in H; try discriminate. exact (counted_sound _ _ _ C _ (mk_uc ls a b ca cb) _ eq_refl eq_refl eq_refl EL).
  - destruct U as [->| ->]; [|destruct r1 as [[? ?]|]]; cbn [bind] in H; eapply IH; exact H.
  - destruct (unified_body_loop _ _) as [[ds' rest]|w|] eqn:EL; cbn [bind] in H; try discriminate. apply counted_ok in EL. cbn [uc_ca uc_cb uc_rest] in EL.
    destruct (counted_same _ _ _ _ _ C _ _ EL) as [_ <-]. rewrite add_parsed_hunk_ok in H. cbn [bind] in H. eapply IH; exact H.
Qed.
