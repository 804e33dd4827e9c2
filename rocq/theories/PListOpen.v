(** Opening gives a list that shows a view. *)
From Coq Require Import String Permutation.
From Verif Require Import Base QtStr Diff Save Parser Paths SpecHistory SpecPatch SpecParse Blend SpecBlend Info ModelList SpecList PHistory PModelState PAnyInput PropsParse PList.
Local Open Scope Z_scope.

Lemma model_of_ext s s' m : ml_heap s' = ml_heap s -> model_of s' m = model_of s m. Proof. intros E. unfold model_of. now rewrite E. Qed.
Lemma fresh_states sort ls p ms : (forall l, Permutation (sort l) l) -> parse sort ls = Ok p -> po_models p = Some ms ->
  Forall (fun x => model_state x (repeat false (length (dm_diffs x))) (repeat false (length (dm_diffs x)))) ms /\ ms <> [].
Proof.
  intros HP E EM. split.
  - pose proof (C21_hunks_contiguous sort ls p HP E) as F. rewrite EM in F. cbn [the_models] in F. eapply Forall_impl; [|exact F].
    intros x (N & hs & C & Q). apply (ms_fresh x hs C N). eapply Forall_impl; [|exact Q]. intros q [_ A]. exact A.
  - unfold parse in E. destruct (clean_up_crap ls) as [[l n]| |]; try discriminate. cbn [bind] in E. destruct (base_parse _ _ _) as [[ms' b]| |] eqn:EB; try discriminate.
    cbn [bind] in E. injection E as <-. cbn [po_models] in EM. subst ms'. unfold base_parse in EB.
    destruct (determine_format _ _); try discriminate EB; destruct (_ : res (list dmodel * bool)) as [[k c]| |] in EB; try discriminate EB; cbn [bind] in EB; injection EB as EB _; destruct (sort k); try discriminate EB; injection EB as <-; discriminate.
Qed.

(** * Selection only *)
Lemma so_refl x : sel_only x x. Proof. unfold sel_only. now destruct x. Qed.
Lemma so_sel x i d : sel_only x (with_selection x i d). Proof. reflexivity. Qed.
Lemma so_trans x y z : sel_only x y -> sel_only y z -> sel_only x z.
Proof. unfold sel_only. intros E1 E2. rewrite E1 in E2. exact E2. Qed.
Definition carry (s s' : mlist) : Prop :=
  (forall m x, model_of s m = Ok x -> exists x', model_of s' m = Ok x' /\ sel_only x x') /\
  ml_info s' = ml_info s /\ ml_process s' = ml_process s /\ ml_models s' = ml_models s /\ quiet s s'.
Lemma carry_refl s : carry s s.
Proof. split; [intros m x E; exists x; split; [exact E|apply so_refl]|]. repeat split. Qed.
Lemma carry_trans a b c : carry a b -> carry b c -> carry a c.
Proof.
  intros (A1 & A2 & A3 & A4 & A5) (B1 & B2 & B3 & B4 & B5). split; [|split; [congruence|split; [congruence|split; [congruence|eapply quiet_trans; eauto]]]].
  intros m x E. destruct (A1 m x E) as (x1 & E1 & S1). destruct (B1 m x1 E1) as (x2 & E2 & S2). exists x2. split; [exact E2|]. eapply so_trans; eauto.
Qed.
Lemma carry_heap s s' : ml_heap s' = ml_heap s -> ml_info s' = ml_info s -> ml_process s' = ml_process s -> ml_models s' = ml_models s -> quiet s s' -> carry s s'.
Proof. intros H1 H2 H3 H4 H5. split; [|auto]. intros m x E. exists x. rewrite (model_of_ext s s' m H1). split; [exact E|apply so_refl]. Qed.
Lemma carry_put s m x y : model_of s m = Ok x -> sel_only x y -> carry s (put_model s m y).
Proof.
  intros E S. split; [|repeat split]. intros m' x' E'. destruct (Nat.eq_dec m m') as [<-|N].
  - rewrite E in E'. injection E' as <-. exists y. split; [eapply model_put; exact E|exact S].
  - exists x'. rewrite model_put_other by exact N. split; [exact E'|apply so_refl].
Qed.
Lemma first_model_carry s s' : first_model s = Ok s' -> carry s s'.
Proof. unfold first_model. destruct (the_list _) as [[|m l]| |]; try discriminate. cbn [bind]. intros E. injection E as <-. apply carry_heap; try reflexivity. repeat split. Qed.
Lemma to_first_carry s s' : to_first_difference s = Ok s' -> carry s s'.
Proof.
  unfold to_first_difference, selected. destruct (ml_sel s) as [m|]; [|discriminate]. destruct (model_of s m) as [x| |] eqn:E; try discriminate. cbn [bind]. unfold first_difference.
  destruct (diff_at x 0) as [d| |]; try discriminate. cbn [bind]. intros H. injection H as <-. eapply carry_trans; [eapply carry_put; [exact E|apply so_sel]|]. apply carry_heap; try reflexivity. repeat split.
Qed.
Lemma go_first_ok s l fs : tidy s l fs -> fs <> [] ->
  exists s' m, (do s <- first_model s; to_first_difference s) = Ok s' /\ tidy s' l fs /\ at_model s' l 0 m /\ at_diff s' m 0 /\ carry s s'.
Proof.
  intros T N. destruct (first_model_ok s l fs T N) as (s1 & m & E1 & T1 & Q1 & A1). rewrite E1. cbn [bind]. destruct (to_first_ok s1 l fs 0 m T1 A1) as (s2 & E2 & T2 & A2 & D2 & Q2).
  exists s2, m. repeat (split; [eassumption|]). eapply carry_trans; [eapply first_model_carry; exact E1|eapply to_first_carry; exact E2].
Qed.
Lemma model_new h ms k x s : ml_heap s = h ++ map Some ms -> nth_error ms k = Some x -> model_of s (length h + k) = Ok x.
Proof.
  intros H E. unfold model_of. rewrite H, nth_error_app2 by lia. replace (length h + k - length h)%nat with k by lia. now rewrite nth_error_map, E.
Qed.
Lemma tidy_new (h : list (option dmodel)) ms s g : ml_heap s = h ++ map Some ms -> ml_models s = Some (seq (length h) (length ms)) -> Forall (fun x => model_state x (fst (g x)) (snd (g x))) ms ->
  tidy s (seq (length h) (length ms)) (map g ms).
Proof.
  intros H M F. split; [exact M|]. split; [apply seq_NoDup|]. clear M. revert h H. induction F as [|x ms MS _ IH]; intros h H; [constructor|]. cbn [length seq map]. constructor.
  - exists x. split; [|exact MS]. pose proof (model_new h (x :: ms) 0 x s H eq_refl) as E. now rewrite Nat.add_0_r in E.
  - specialize (IH (h ++ [Some x])). rewrite app_length in IH. cbn [length] in IH. replace (length h + 1)%nat with (S (length h)) in IH by lia. apply IH. rewrite H. cbn. now rewrite <- app_assoc.
Qed.
Definition blank (x : dmodel) : list bool * list bool := (repeat false (length (dm_diffs x)), repeat false (length (dm_diffs x))).
Definition parse_ready (o : outside) (diff : str) (p : parse_out) (ms : list dmodel) : Prop :=
  (forall l, Permutation (os_sort o l) l) /\ parse (os_sort o) (split_lines diff) = Ok p /\ po_models p = Some ms.
Lemma parse_output_ok o s diff p ms i : parse_ready o diff p ms -> ml_info s = Some i ->
  exists s' l m, parse_diff_output o s diff = Ok (s', true) /\ tidy s' l (map blank ms) /\ at_model s' l 0 m /\ at_diff s' m 0 /\
    holds s' (fun k y => exists x, nth_error ms k = Some x /\ sel_only x y) (length ms) /\
    ml_info s' = Some (with_parsed i (po_generator p) (po_format p)) /\ ml_process s' = ml_process s /\ ml_rw s' = ml_rw s /\ ml_has_save s' = ml_has_save s /\
    ml_out s' = ml_out s ++ [DiffString diff] ++ (if po_malformed p then [Error Malformed] else []) ++
                [SetStatusBar 0 0 (Z.of_nat (length ms)) (match ms with x :: _ => Z.of_nat (length (dm_diffs x)) | [] => 0 end) 0].
Proof.
  intros (HP & E & EM) I. destruct (fresh_states _ _ _ _ HP E EM) as [F N]. unfold parse_diff_output. rewrite E. cbn [bind]. rewrite EM.
  set (s0 := emit (DiffString diff) s). set (h := match ml_models s0 with Some l => delete_all l (ml_heap s0) | None => ml_heap s0 end). unfold the_info. cbn [with_models ml_info s0 emit]. rewrite I. cbn [bind ml_models with_info with_models].
  set (s1 := with_info (with_models s0 (h ++ map Some ms) (Some (seq (length h) (length ms)))) (Some (with_parsed i (po_generator p) (po_format p)))).
  set (s2 := if po_malformed p then emit (Error Malformed) s1 else s1).
  assert (T2 : tidy s2 (seq (length h) (length ms)) (map blank ms)).
  { apply (tidy_new h); [unfold s2; destruct (po_malformed p); reflexivity|unfold s2; destruct (po_malformed p); reflexivity|exact F]. }
  assert (NN : map blank ms <> []) by (destruct ms; [congruence|discriminate]).
  destruct (go_first_ok s2 _ _ T2 NN) as (s3 & m & E3 & T3 & A3 & D3 & C3).
  destruct (first_model s2) as [sa| |] eqn:EA; try discriminate E3. cbn [bind] in E3 |- *. rewrite E3. cbn [bind].
  destruct (tidy_at _ _ _ _ _ T3 (proj1 A3)) as (x3 & f3 & X3 & F3 & M3). unfold difference_count. rewrite (proj1 (proj2 A3)), X3. cbn [bind]. destruct C3 as (C1 & C2 & C3 & C4 & C5 & C6 & C7).
  eexists _, _, m. split; [reflexivity|]. split; [eapply tidy_ext; [..|exact T3]; reflexivity|]. split; [exact A3|]. split; [eapply at_diff_ext; [..|exact D3]; reflexivity|]. split.
  { exists (seq (length h) (length ms)). split; [apply T3|]. split; [apply seq_length|]. intros k m' NK. assert (LK : (k < length ms)%nat) by (apply nth_some_lt in NK; now rewrite seq_length in NK).
    destruct (nth_error_Some_lt _ _ LK) as [x EX]. assert (EK : m' = (length h + k)%nat) by (rewrite (nth_error_nth' _ 0%nat) in NK by (now rewrite seq_length); rewrite seq_nth in NK by exact LK; congruence). subst m'.
    destruct (C1 (length h + k)%nat x) as (x' & Ex' & Sx'). { eapply model_new; [|exact EX]. unfold s2. destruct (po_malformed p); reflexivity. }
    exists x'. split; [exact Ex'|]. eauto. }
  split; [cbn; rewrite C2; unfold s2; destruct (po_malformed p); reflexivity|]. split; [cbn; rewrite C3; unfold s2; destruct (po_malformed p); reflexivity|].
  split; [cbn; rewrite C5; unfold s2; destruct (po_malformed p); reflexivity|]. split; [cbn; rewrite C6; unfold s2; destruct (po_malformed p); reflexivity|].
  cbn [emit ml_out]. rewrite C7. unfold model_count. rewrite (proj1 T3), seq_length.
  replace (Z.of_nat (length (dm_diffs x3))) with (match ms with x :: _ => Z.of_nat (length (dm_diffs x)) | [] => 0 end).
  - unfold s2. destruct (po_malformed p); cbn; rewrite <- ?app_assoc; reflexivity.
  - rewrite (ms_len _ _ _ M3). destruct ms as [|x ms']; [congruence|]. cbn in F3. injection F3 as <-. cbn. now rewrite repeat_length.
Qed.

(** * After parsing *)
Lemma shows_opened s l ms m b : tidy s l (map (fun x => (repeat b (length (dm_diffs x)), repeat false (length (dm_diffs x)))) ms) -> at_model s l 0 m -> at_diff s m 0 -> shows s (opened ms b (ml_rw s)).
Proof. intros T A D. apply shows_split. split; [reflexivity|]. exists l, m. auto. Qed.
Lemma holds_ext s s' P n : ml_heap s' = ml_heap s -> ml_models s' = ml_models s -> holds s P n -> holds s' P n.
Proof. intros H M (l & L1 & L2 & L3). exists l. split; [congruence|]. split; [exact L2|]. intros k m N. rewrite (model_of_ext s s' m H). auto. Qed.
(** updateModelListActions() and show(). *)
Lemma present_ok s v : shows s v -> exists s', (do s <- update_actions s; show s) = Ok s' /\ shows s' v /\ actions_right s' v /\ ml_heap s' = ml_heap s /\ ml_models s' = ml_models s /\
  ml_has_save s' = ml_has_save s /\ ml_rw s' = ml_rw s /\ ml_info s' = ml_info s /\ ml_process s' = ml_process s /\ ml_out s' = ml_out s ++ [ModelsChanged (ml_models s'); SetSelection (ml_sel s') (ml_diff s')].
Proof.
  intros SH. destruct (update_actions_ok s v SH) as (a & E & A). rewrite E. cbn [bind]. unfold show, the_list. change (ml_models (with_act s a)) with (ml_models s).
  pose proof (sh_all _ _ SH) as (l & M & _). rewrite M. cbn [bind]. eexists. split; [reflexivity|]. split; [apply shows_emit, shows_emit, shows_act, SH|]. split; [destruct A; split; assumption|].
  repeat split; cbn; rewrite ?M, <- ?app_assoc; reflexivity.
Qed.
Lemma parse_and_open_ok o s diff p ms i : parse_ready o diff p ms -> ml_info s = Some i ->
  exists s', parse_and_open o s diff = Ok (s', true) /\ shows s' (opened ms false (ml_rw s)) /\ actions_right s' (opened ms false (ml_rw s)) /\
    holds s' (fun k y => exists x, nth_error ms k = Some x /\ sel_only x y) (length ms) /\ ml_info s' = Some (with_parsed i (po_generator p) (po_format p)) /\
    ml_has_save s' = ml_has_save s /\ ml_process s' = ml_process s /\
    (In (Error Malformed) (skipn (length (ml_out s)) (ml_out s')) <-> po_malformed p = true) /\
    exists pre, ml_out s' = ml_out s ++ pre ++ [ModelsChanged (ml_models s'); SetSelection (ml_sel s') (ml_diff s'); Status FinishedParsing].
Proof.
  intros R I. unfold parse_and_open. set (s0 := emit (Status Parsing) (clear s)).
  assert (I0 : ml_info s0 = Some i) by (unfold s0, clear; destruct (ml_models s); exact I). assert (W0 : ml_rw s0 = ml_rw s /\ ml_has_save s0 = ml_has_save s /\ ml_process s0 = ml_process s) by (unfold s0, clear; destruct (ml_models s); auto).
  assert (O0 : exists g, ml_out s0 = ml_out s ++ [g; Status Parsing] /\ g <> Error Malformed).
  { unfold s0, clear. destruct (ml_models s); (eexists; split; [cbn; rewrite <- app_assoc; reflexivity|discriminate]). }
  destruct (parse_output_ok o s0 diff p ms i R I0) as (s1 & l & m & E1 & T1 & A1 & D1 & H1 & I1 & P1 & RW1 & HS1 & O1). rewrite E1. cbn [bind].
  assert (SH1 : shows s1 (opened ms false (ml_rw s))) by (replace (ml_rw s) with (ml_rw s1) by (rewrite RW1; apply W0); eapply shows_opened; eauto).
  destruct (present_ok s1 _ SH1) as (s2 & E2 & S2 & R2 & H2 & M2 & HS2 & RW2 & I2 & P2 & O2). destruct (update_actions s1) as [sa| |]; try discriminate E2. cbn [bind] in E2 |- *. rewrite E2. cbn [bind].
  eexists. split; [reflexivity|]. split; [now apply shows_emit|]. split; [destruct R2; split; assumption|]. split; [eapply holds_ext; [..|exact H1]; assumption|].
  split; [cbn; congruence|]. split; [cbn; rewrite HS2, HS1; apply W0|]. split; [cbn; rewrite P2, P1; apply W0|]. destruct O0 as (g & O0 & NG). cbn [emit ml_out ml_models ml_sel ml_diff].
  set (bar := SetStatusBar _ _ _ _ _) in O1. set (mal := if po_malformed p then [Error Malformed] else []) in O1.
  assert (EO : ml_out s2 ++ [Status FinishedParsing] = ml_out s ++ ([g; Status Parsing] ++ [DiffString diff] ++ mal ++ [bar]) ++ [ModelsChanged (ml_models s2); SetSelection (ml_sel s2) (ml_diff s2); Status FinishedParsing]).
  { rewrite O2, O1, O0, <- !app_assoc. reflexivity. }
  split; [|exists ([g; Status Parsing] ++ [DiffString diff] ++ mal ++ [bar]); exact EO].
  rewrite EO. rewrite skipn_app, skipn_all, Nat.sub_diag. change (skipn 0 ?l) with l. rewrite app_nil_l, !in_app_iff. unfold mal, bar.
  destruct (po_malformed p); (split; [intros H; (reflexivity || exfalso)|intros H; (discriminate H || (left; right; right; left; left; reflexivity))]).
  repeat match goal with H : _ \/ _ |- _ => destruct H | H : In _ _ |- _ => cbn in H | H : False |- _ => destruct H end; congruence.
Qed.

(** * Blending *)
Lemma blend_model_ok s l fs i m text : tidy s l fs -> nth_error l i = Some m ->
  exists s' m0 x0 x1 x2, blend_model s m text = Ok s' /\ tidy s' l fs /\ at_model s' l 0 m0 /\ at_diff s' m0 0 /\
    model_of s m = Ok x0 /\ blend_file x0 text = Ok x1 /\ model_of s' m = Ok x2 /\ sel_only x1 x2 /\
    (forall m' x, m' <> m -> model_of s m' = Ok x -> exists x', model_of s' m' = Ok x' /\ sel_only x x') /\
    ml_info s' = ml_info s /\ ml_process s' = ml_process s /\ quiet s s'.
Proof.
  intros T N. destruct (tidy_at _ _ _ _ _ T N) as (x & f & E & F & M). unfold blend_model. rewrite E. cbn [bind]. destruct (ms_blend x _ _ text M) as (y & EB & MB & _). rewrite EB. cbn [bind].
  assert (T1 : tidy (put_model s m y) l fs) by (eapply tidy_same; eauto). assert (NF : fs <> []) by (destruct fs; [destruct i; discriminate F|discriminate]).
  destruct (go_first_ok _ _ _ T1 NF) as (s' & m0 & E' & T' & A' & D' & (C1 & C2 & C3 & C4 & C5)). destruct (C1 m y) as (x2 & X2 & S2); [eapply model_put; exact E|].
  exists s', m0, x, y, x2. split; [exact E'|]. repeat (split; [assumption||reflexivity|]). split; [|split; [exact C2|split; [exact C3|exact C5]]].
  intros m' x' NE EX. apply C1. now rewrite model_put_other by congruence.
Qed.
Definition standing (s : mlist) (l : list nat) (fs : list (list bool * list bool)) : Prop := tidy s l fs /\ exists m, at_model s l 0 m /\ at_diff s m 0.
Lemma so_source x y : sel_only x y -> dm_source y = dm_source x. Proof. unfold sel_only. intros ->. reflexivity. Qed.
Lemma so_blended t x y z : sel_only x y -> blended_with t y z -> blended_with t x z.
Proof. intros S (a & b & A & B & C). exists a, b. split; [eapply so_trans; eauto|auto]. Qed.
Lemma blended_so t x y z : blended_with t x y -> sel_only y z -> blended_with t x z.
Proof. intros (a & b & A & B & C) S. exists a, b. split; [exact A|]. split; [exact B|]. eapply so_trans; eauto. Qed.
Lemma blend_dir_ok o url l0 fs : forall l s r, standing s l0 fs -> NoDup l -> (forall m, In m l -> In m l0) ->
  exists s', blend_dir o url s l r = Ok (s', match l with [] => r | _ => true end) /\ standing s' l0 fs /\
    (forall m x, In m l -> model_of s m = Ok x -> exists x', model_of s' m = Ok x' /\ blended_with (dir_text o url x) x x') /\
    (forall m x, ~ In m l -> model_of s m = Ok x -> exists x', model_of s' m = Ok x' /\ sel_only x x') /\
    ml_info s' = ml_info s /\ ml_process s' = ml_process s /\ quiet s s'.
Proof.
  induction l as [|m l IH]; intros s r ST ND IN; cbn [blend_dir].
  - exists s. split; [reflexivity|]. split; [exact ST|]. split; [intros ? ? []|]. split; [intros m x _ E; exists x; split; [exact E|apply so_refl]|]. repeat split.
  - inversion ND as [|? ? NI ND']; subst. destruct ST as [T _]. destruct (In_nth_error _ _ (IN m (or_introl eq_refl))) as [i Hi].
    destruct (tidy_at _ _ _ _ _ T Hi) as (x & f & E & F & M). rewrite E. cbn [bind]. fold (dir_text o url x).
    destruct (blend_model_ok s l0 fs i m (dir_text o url x) T Hi) as (s1 & m0 & x0 & x1 & x2 & E1 & T1 & A1 & D1 & X0 & B1 & X2 & S2 & O1 & I1 & P1 & Q1).
    rewrite E1. cbn [bind]. rewrite E in X0. injection X0 as <-.
    destruct (IH s1 true) as (s' & E' & ST' & B' & O' & I' & P' & Q'); [split; [exact T1|eauto]|exact ND'|intros; apply IN; now right|].
    exists s'. split; [rewrite E'; now destruct l|]. split; [exact ST'|]. split; [|split; [|split; [congruence|split; [congruence|eapply quiet_trans; eauto]]]].
    + intros m' x' [<-|I] EX.
      * rewrite E in EX. injection EX as <-. destruct (O' m x2 NI X2) as (x3 & X3 & S3). exists x3. split; [exact X3|]. exists x, x1. split; [apply so_refl|]. split; [exact B1|]. eapply so_trans; eauto.
      * assert (NE : m' <> m) by (intros ->; contradiction). destruct (O1 m' x' NE EX) as (x3 & X3 & S3). destruct (B' m' x3 I X3) as (x4 & X4 & S4). exists x4. split; [exact X4|].
        unfold dir_text in S4. rewrite (so_source _ _ S3) in S4. eapply so_blended; eauto.
    + intros m' x' NI' EX. assert (NE : m' <> m) by (intros ->; apply NI'; now left). destruct (O1 m' x' NE EX) as (x3 & X3 & S3). destruct (O' m' x3 (fun I => NI' (or_intror I)) X3) as (x4 & X4 & S4). exists x4. split; [exact X4|]. eapply so_trans; eauto.
Qed.
Lemma blend_original_ok o s l fs url : standing s l fs -> l <> [] ->
  exists s', blend_original o s url = Ok (s', (os_is_dir o url || os_is_file o url)%bool) /\ standing s' l fs /\
    (forall k m x, nth_error l k = Some m -> model_of s m = Ok x -> exists x', model_of s' m = Ok x' /\ original o url k x x') /\
    ml_info s' = ml_info s /\ ml_process s' = ml_process s /\ quiet s s'.
Proof.
  intros ST NL. pose proof ST as [T (m0 & A0 & D0)]. unfold blend_original, original, the_list. rewrite (proj1 T). destruct (os_is_dir o url); cbn [orb bind].
  - destruct (blend_dir_ok o url l fs l s false ST (proj1 (proj2 T)) (fun m H => H)) as (s' & E & ST' & B & O & I & P & Q). exists s'. rewrite E. split; [destruct l; [congruence|reflexivity]|]. split; [exact ST'|].
    split; [|auto]. intros k m x N E'. apply B; [eapply nth_error_In; exact N|exact E'].
  - destruct (os_is_file o url); cbn [bind].
    + change (model_at l 0) with (model_at l (Z.of_nat 0)). rewrite (model_at_nth l 0 m0 (proj1 A0)). cbn [bind].
      destruct (blend_model_ok s l fs 0 m0 (os_read o url) T (proj1 A0)) as (s1 & m1 & x0 & x1 & x2 & E1 & T1 & A1 & D1 & X0 & B1 & X2 & S2 & O1 & I1 & P1 & Q1). rewrite E1. cbn [bind].
      exists s1. split; [reflexivity|]. split; [split; [exact T1|eauto]|]. split; [|auto]. intros [|k] m x N E.
      * assert (m = m0) as -> by (destruct A0; congruence). rewrite X0 in E. injection E as <-. exists x2. split; [exact X2|]. exists x0, x1. split; [apply so_refl|auto].
      * apply O1; [|exact E]. intros ->. assert (S k = 0%nat); [|discriminate]. eapply NoDup_nth_error; [apply T|eapply nth_some_lt; exact N|rewrite N; symmetry; apply A0].
    + exists s. split; [reflexivity|]. split; [exact ST|]. split; [intros k m x _ E; exists x; split; [exact E|apply so_refl]|]. repeat split.
Qed.

(** * Depth and applied *)
Lemma names_place x a b c d e f : same_place x (with_names x a b c d e f). Proof. repeat split. Qed.
Lemma place_trans x y z : same_place x y -> same_place y z -> same_place x z.
Proof. intros (A & B & C) (D & E & F). repeat split; congruence. Qed.
Lemma source_place x p : same_place x (set_source_file p x).
Proof. unfold set_source_file, split_source. destruct (last_index_of _ _); eapply place_trans; apply names_place. Qed.
Lemma destination_place x p : same_place x (set_destination_file p x).
Proof. unfold set_destination_file, split_destination. destruct (last_index_of _ _); eapply place_trans; apply names_place. Qed.
Lemma ms_depth n b x now saved : model_state x now saved ->
  exists y, set_depth_and_applied n b x = Ok y /\ model_state y (map (fun _ => b) now) saved /\ same_place x y.
Proof.
  intros M. unfold set_depth_and_applied. set (x1 := set_source_file _ x). set (x2 := set_destination_file _ x1).
  assert (M2 : model_state x2 now saved) by (apply ms_set_destination, ms_set_source, M). destruct (ms_apply_all x2 _ _ b M2) as (y & E & MY & D & S & I). exists y. split; [exact E|]. split; [exact MY|].
  eapply place_trans; [eapply place_trans; [apply source_place|apply destination_place]|]. repeat split; [exact D|exact S|exact I].
Qed.
Definition applied_now (b : bool) (f : list bool * list bool) : list bool * list bool := (map (fun _ => b) (fst f), snd f).
Lemma depth_ok i : forall l s fs, NoDup l -> Forall2 (fun m f => exists x, model_of s m = Ok x /\ model_state x (fst f) (snd f)) l fs ->
  exists s', depth_and_applied i s l = Ok s' /\
    Forall2 (fun m f => exists x, model_of s' m = Ok x /\ model_state x (fst f) (snd f)) l (map (applied_now (in_applied i)) fs) /\
    (forall m x, In m l -> model_of s m = Ok x -> exists x', model_of s' m = Ok x' /\ set_depth_and_applied (in_depth i) (in_applied i) x = Ok x' /\ same_place x x') /\
    (forall m, ~ In m l -> model_of s' m = model_of s m) /\ same_list s s' /\ ml_info s' = ml_info s /\ ml_process s' = ml_process s /\ ml_out s' = ml_out s.
Proof.
  induction l as [|m l IH]; intros s fs ND F; inversion F as [|? f ? fs' (x & E & M) F']; subst; cbn [depth_and_applied map].
  - exists s. split; [reflexivity|]. split; [constructor|]. split; [intros ? ? []|]. repeat split.
  - inversion ND as [|? ? NI ND']; subst. rewrite E. cbn [bind]. destruct (ms_depth (in_depth i) (in_applied i) x _ _ M) as (y & EY & MY & PY). rewrite EY. cbn [bind].
    destruct (IH (put_model s m y) fs' ND') as (s' & E' & F2 & B & O & SL & I & P & OU).
    { eapply Forall2_models; [|exact F']. intros m' IN. apply model_put_other. intros ->. contradiction. }
    assert (OM : model_of s' m = Ok y) by (rewrite O by exact NI; eapply model_put; exact E).
    exists s'. split; [exact E'|]. split; [constructor; [exists y; split; [exact OM|exact MY]|exact F2]|]. split; [|split; [|split; [exact SL|auto]]].
    + intros m' x' [<-|IN] EX.
      * rewrite E in EX. injection EX as <-. exists y. auto.
      * apply B; [exact IN|]. rewrite model_put_other; [exact EX|]. intros ->. contradiction.
    + intros m' NI'. rewrite O by (intros IN; apply NI'; now right). apply model_put_other. intros ->. apply NI'. now left.
Qed.
Lemma blank_applied b ms : map (applied_now b) (map blank ms) = map (fun x => (repeat b (length (dm_diffs x)), repeat false (length (dm_diffs x)))) ms.
Proof.
  rewrite map_map. apply map_ext. intros x. unfold applied_now, blank. cbn [fst snd]. f_equal. induction (length (dm_diffs x)); cbn; congruence.
Qed.
(** openFileAndDiff(), openDirAndDiff(). *)
Lemma open_and_blend_ok o s p ms i : ml_info s = Some i -> parse_ready o (os_read o (in_local_destination i)) p ms ->
  exists s', open_and_blend o s = Ok (s', (os_is_dir o (in_local_source i) || os_is_file o (in_local_source i))%bool) /\
    shows s' (opened ms (in_applied i) (ml_rw s)) /\
    holds s' (fun k y => exists x x1 x2, nth_error ms k = Some x /\ sel_only x x1 /\ set_depth_and_applied (in_depth i) (in_applied i) x1 = Ok x2 /\
                 original o (in_local_source i) k x2 y) (length ms) /\
    ml_info s' = Some (with_parsed i (po_generator p) (po_format p)) /\ ml_has_save s' = ml_has_save s /\ ml_process s' = ml_process s /\
    (if (os_is_dir o (in_local_source i) || os_is_file o (in_local_source i))%bool
     then actions_right s' (opened ms (in_applied i) (ml_rw s)) /\
          (exists pre, ml_out s' = ml_out s ++ pre ++ [ModelsChanged (ml_models s'); SetSelection (ml_sel s') (ml_diff s')])
     else exists pre, ml_out s' = ml_out s ++ pre ++ [Error NotApplied]).
Proof.
  intros I R. unfold open_and_blend. set (s0 := clear s).
  assert (I0 : ml_info s0 = Some i) by (unfold s0, clear; destruct (ml_models s); exact I). assert (W0 : ml_rw s0 = ml_rw s /\ ml_has_save s0 = ml_has_save s /\ ml_process s0 = ml_process s) by (unfold s0, clear; destruct (ml_models s); auto).
  assert (O0 : exists g, ml_out s0 = ml_out s ++ g). { unfold s0, clear. destruct (ml_models s); (eexists; reflexivity). }
  unfold the_info at 1. rewrite I0. cbn [bind].
  destruct (parse_output_ok o s0 _ p ms i R I0) as (s1 & l & m & E1 & T1 & A1 & D1 & H1 & I1 & P1 & RW1 & HS1 & O1). rewrite E1. cbn [bind negb].
  unfold the_info. rewrite I1. cbn [bind]. unfold the_list. rewrite (proj1 T1). cbn [bind]. destruct T1 as (T1a & T1b & T1c).
  set (j := with_parsed i (po_generator p) (po_format p)) in *.
  destruct (depth_ok j l s1 _ T1b T1c) as (s2 & E2 & F2 & B2 & OT2 & SL2 & I2 & P2 & O2). rewrite E2. cbn [bind]. change (in_applied j) with (in_applied i) in *. change (in_depth j) with (in_depth i) in *. change (in_local_source j) with (in_local_source i).
  destruct SL2 as (L1 & L2 & L3 & L4 & L5 & L6 & L7). rewrite blank_applied in F2. set (fs := map _ ms) in F2.
  assert (T2 : tidy s2 l fs) by (split; [congruence|split; [exact T1b|exact F2]]). destruct A1 as (Aa & Ab & Ac).
  assert (A2 : at_model s2 l 0 m) by (split; [exact Aa|split; congruence]).
  assert (D2 : at_diff s2 m 0).
  { destruct D1 as (x & d & X & Y1 & Y2 & Y3 & Y4). destruct (B2 m x (nth_error_In _ _ Aa) X) as (x' & X' & _ & (Z1 & Z2 & Z3)). exists x', d. split; [exact X'|]. rewrite Z1, Z2, Z3, L3. auto. }
  assert (NL : l <> []) by (intros ->; discriminate Aa).
  destruct (blend_original_ok o s2 l fs (in_local_source i) (conj T2 (ex_intro _ m (conj A2 D2))) NL) as (s3 & E3 & (T3 & m3 & A3 & D3) & B3 & I3 & P3 & (Q3 & Q4 & Q5)). rewrite E3. cbn [bind].
  assert (RW3 : ml_rw s3 = ml_rw s) by (rewrite Q3, L5, RW1; apply W0). assert (HS3 : ml_has_save s3 = ml_has_save s) by (rewrite Q4, L6, HS1; apply W0).
  assert (SH3 : shows s3 (opened ms (in_applied i) (ml_rw s))) by (rewrite <- RW3; eapply shows_opened; eauto).
  assert (HO : holds s3 (fun k y => exists x x1 x2, nth_error ms k = Some x /\ sel_only x x1 /\ set_depth_and_applied (in_depth i) (in_applied i) x1 = Ok x2 /\ original o (in_local_source i) k x2 y) (length ms)).
  { destruct H1 as (l' & M1 & LL & H1). assert (l' = l) as -> by congruence. exists l. split; [apply T3|]. split; [exact LL|]. intros k m' N. destruct (H1 k m' N) as (y1 & Y1 & x & X & SO).
    destruct (B2 m' y1 (nth_error_In _ _ N) Y1) as (y2 & Y2 & SD & _). destruct (B3 k m' y2 N Y2) as (y3 & Y3 & OR). exists y3. split; [exact Y3|]. exists x, y1, y2. auto. }
  destruct O0 as (g0 & O0). assert (OO : exists g, ml_out s3 = ml_out s ++ g) by (rewrite Q5, O2, O1, O0, <- app_assoc; eexists; reflexivity). destruct OO as (g3 & OO).
  destruct (os_is_dir o (in_local_source i) || os_is_file o (in_local_source i))%bool; cbn [negb].
  - destruct (present_ok s3 _ SH3) as (s4 & E4 & S4 & R4 & H4 & M4 & HS4 & RW4 & I4 & P4 & O4). destruct (update_actions s3) as [sa| |]; try discriminate E4. cbn [bind] in E4 |- *. rewrite E4. cbn [bind].
    exists s4. split; [reflexivity|]. split; [exact S4|]. split; [eapply holds_ext; [..|exact HO]; assumption|]. split; [rewrite I4, I3, I2; exact I1|]. split; [congruence|]. split; [rewrite P4, P3, P2, P1; apply W0|].
    split; [exact R4|]. exists g3. rewrite O4, OO, <- app_assoc. reflexivity.
  - eexists. split; [reflexivity|]. split; [apply shows_emit, SH3|]. split; [eapply holds_ext; [..|exact HO]; reflexivity|]. split; [cbn; rewrite I3, I2; exact I1|]. split; [exact HS3|]. split; [cbn; rewrite P3, P2, P1; apply W0|].
    exists g3. cbn. rewrite OO, <- app_assoc. reflexivity.
Qed.
(** slotDiffProcessFinished(true). *)
Lemma process_ok o s p ms i st out err : ml_process s = true -> ml_info s = Some i -> parse_ready o out p ms ->
  exists s', slot_diff_process_finished o s true st out err = Ok s' /\ shows s' (opened ms false (ml_rw s)) /\ actions_right s' (opened ms false (ml_rw s)) /\
    holds s' (fun k y => exists x x1, nth_error ms k = Some x /\ sel_only x x1 /\
                (if mode_eqb (in_mode i) ShowingDiff then sel_only x1 y else original o (in_local_source i) k x1 y)) (length ms) /\
    ml_info s' = Some (with_parsed i (po_generator p) (po_format p)) /\ ml_has_save s' = ml_has_save s /\ ml_process s' = false /\
    exists pre, ml_out s' = ml_out s ++ pre ++ [ModelsChanged (ml_models s'); SetSelection (ml_sel s') (ml_diff s'); Status FinishedParsing].
Proof.
  intros PR I R. unfold slot_diff_process_finished. rewrite PR. cbn [negb]. set (s0 := emit (Status Parsing) s).
  destruct (parse_output_ok o s0 _ p ms i R I) as (s1 & l & m & E1 & T1 & A1 & D1 & H1 & I1 & P1 & RW1 & HS1 & O1). rewrite E1. cbn [bind negb]. unfold the_info. rewrite I1. cbn [bind].
  set (j := with_parsed i (po_generator p) (po_format p)) in *. change (in_mode j) with (in_mode i). change (in_local_source j) with (in_local_source i).
  assert (NL : l <> []) by (intros ->; destruct A1; discriminate).
  assert (Q : exists s2, (if mode_eqb (in_mode i) ShowingDiff then Ok s1 else do r <- blend_original o s1 (in_local_source i); Ok (fst r)) = Ok s2 /\ standing s2 l (map blank ms) /\
     (forall k m' x, nth_error l k = Some m' -> model_of s1 m' = Ok x -> exists x', model_of s2 m' = Ok x' /\ (if mode_eqb (in_mode i) ShowingDiff then sel_only x x' else original o (in_local_source i) k x x')) /\
     ml_info s2 = ml_info s1 /\ ml_process s2 = ml_process s1 /\ quiet s1 s2).
  { destruct (mode_eqb (in_mode i) ShowingDiff).
    - exists s1. split; [reflexivity|]. split; [split; [exact T1|eauto]|]. split; [intros k m' x _ E; exists x; split; [exact E|apply so_refl]|]. repeat split.
    - destruct (blend_original_ok o s1 l (map blank ms) (in_local_source i) (conj T1 (ex_intro _ m (conj A1 D1))) NL) as (s2 & E2 & ST & B & IP & PP & QQ). rewrite E2. cbn [bind fst]. exists s2. auto 10. }
  destruct Q as (s2 & E2 & (T2 & m2 & A2 & D2) & B2 & I2 & P2 & (Q2 & Q3 & Q4)). rewrite E2. cbn [bind].
  assert (RW2 : ml_rw s2 = ml_rw s) by (rewrite Q2, RW1; reflexivity). assert (SH2 : shows s2 (opened ms false (ml_rw s))) by (rewrite <- RW2; eapply shows_opened; eauto).
  destruct (present_ok s2 _ SH2) as (s3 & E3 & S3 & R3 & H3 & M3 & HS3 & RW3 & I3 & P3 & O3). destruct (update_actions s2) as [sa| |]; try discriminate E3. cbn [bind] in E3 |- *. rewrite E3. cbn [bind].
  eexists. split; [reflexivity|]. split; [eapply shows_ext; [..|exact S3]; reflexivity|]. split; [destruct R3; split; assumption|]. split.
  { destruct H1 as (l' & M1 & LL & H1). assert (l' = l) as -> by (destruct T1; congruence). exists l. split; [cbn; rewrite M3; apply T2|]. split; [exact LL|]. intros k m' N. destruct (H1 k m' N) as (y1 & Y1 & x & X & SO).
    destruct (B2 k m' y1 N Y1) as (y2 & Y2 & OR). exists y2. split; [erewrite (model_of_ext s2); [exact Y2|exact H3]|]. exists x, y1. auto. }
  split; [cbn; rewrite I3, I2; exact I1|]. split; [cbn; rewrite HS3, Q3, HS1; reflexivity|]. split; [reflexivity|].
  cbn [with_process emit ml_out ml_models ml_sel ml_diff]. rewrite O3, Q4, O1. eexists ([Status Parsing] ++ [DiffString out] ++ (if po_malformed p then [Error Malformed] else []) ++ [SetStatusBar _ _ _ _ _]). unfold s0. cbn [emit ml_out]. rewrite <- !app_assoc. reflexivity.
Qed.
(** No models. *)
Definition parse_fails (o : outside) (diff : str) (p : parse_out) : Prop := parse (os_sort o) (split_lines diff) = Ok p /\ po_models p = None.
Lemma parse_output_fails o s diff p i : parse_fails o diff p -> ml_info s = Some i ->
  exists s', parse_diff_output o s diff = Ok (s', false) /\ ml_models s' = None /\ ml_sel s' = ml_sel s /\ ml_diff s' = ml_diff s /\ ml_index s' = ml_index s /\ ml_act s' = ml_act s /\
    ml_info s' = Some (with_parsed i (po_generator p) (po_format p)) /\ ml_out s' = ml_out s ++ [DiffString diff] /\
    ml_heap s' = match ml_models s with Some l => delete_all l (ml_heap s) | None => ml_heap s end.
Proof.
  intros (E & N) I. unfold parse_diff_output. rewrite E. cbn [bind]. rewrite N. unfold the_info. cbn [with_models emit ml_info]. rewrite I. cbn [bind ml_models with_info with_models].
  eexists. split; [reflexivity|]. cbn. repeat split.
Qed.
