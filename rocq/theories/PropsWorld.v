(** C62, C63, C64: what is on disk while a user works with the list. *)
From Coq Require Import String Permutation.
From Verif Require Import Base QtStr Diff Save Parser SpecHistory SpecPatch SpecParse SpecText SpecUnified Blend SpecBlend SpecWorkflow Info ModelList SpecList World SpecWorld
  PHistory PropsText PEditLines PUnifiedDoc PropsUnified PropsRecreate PBlend PSave PropsBlend PWorkflow PropsWorkflow PModelState PList PListOpen PropsList PKin PWorld PAnyInput PropsRewritten.
From Verif Require PLevTable.
Local Open Scope Z_scope.

(** * What the specification says at the ends: nothing kept out, and everything kept out *)
Lemma pick_none ss : forall fs, length fs = length (filter is_change ss) -> (forall f, In f fs -> f = false) -> pick fs ss = concat (map dst_lines ss).
Proof.
  induction ss as [|s ss IH]; intros fs L A; [reflexivity|]. destruct s as [ls|r a]; cbn in *; [now rewrite IH|]. destruct fs as [|f fs]; [discriminate|].
  rewrite (A f (or_introl eq_refl)), IH; [reflexivity|now injection L|intros; apply A; now right].
Qed.
Lemma pick_all ss : forall fs, length fs = length (filter is_change ss) -> (forall f, In f fs -> f = true) -> pick fs ss = concat (map src_lines ss).
Proof.
  induction ss as [|s ss IH]; intros fs L A; [reflexivity|]. destruct s as [ls|r a]; cbn in *; [now rewrite IH|]. destruct fs as [|f fs]; [discriminate|].
  rewrite (A f (or_introl eq_refl)), IH; [reflexivity|now injection L|intros; apply A; now right].
Qed.
Theorem C62_mixture_ends :
  forall A B hs old text, patches true 1 1 A B hs -> mixture A hs old text ->
  ((forall f, In f old -> f = false) -> text = concat B) /\ ((forall f, In f old -> f = true) -> text = concat A).
Proof.
  intros A B hs old text P (R & I & ->).
  assert (G : forall f s t A B hs, patches f s t A B hs -> forall old R, in_part s old A hs R -> ((forall f, In f old -> f = false) -> R = B) /\ ((forall f, In f old -> f = true) -> R = A)).
  { clear. induction 1 as [f s t same|f s t same A B h hs _ HA HB P IH]; intros old R I.
    - inversion I; subst; auto.
    - inversion I as [|? same' A' h' hs' f1 f2 R' E1 E2 I' X1 X2 X3 X4 X5]; subst. assert (LS : length same' = length same) by (unfold count in *; lia).
      apply app_same_length in X3 as [-> X3]; [|exact LS]. apply app_inv_head in X3. subst A'. destruct (IH f2 R' I') as [G1 G2]. unfold changes_in in E2. split; intros Q.
      + rewrite (pick_none _ _ E2) by (intros; apply Q; apply in_or_app; now left). now rewrite G1 by (intros; apply Q; apply in_or_app; now right).
      + rewrite (pick_all _ _ E2) by (intros; apply Q; apply in_or_app; now left). now rewrite G2 by (intros; apply Q; apply in_or_app; now right). }
  destruct (G _ _ _ _ _ _ P _ _ I) as [G1 G2]. split; intros Q; f_equal; auto.
Qed.
Print Assumptions C62_mixture_ends.

(** * From a file of the document to an entry *)
Lemma so_links x y hs : sel_only x y -> links x hs -> links y hs.
Proof. unfold sel_only. intros -> [L1 L2 L3 L4 L5 L6]. split; assumption. Qed.
Lemma so_names x y : sel_only x y -> dm_destination y = dm_destination x /\ dm_dpath y = dm_dpath x /\ dm_dfile y = dm_dfile x /\ dm_source y = dm_source x.
Proof. unfold sel_only. intros ->. auto. Qed.
Lemma blend_names x y : same_but_hunks x y -> dm_destination y = dm_destination x /\ dm_dpath y = dm_dpath x /\ dm_dfile y = dm_dfile x.
Proof. unfold same_but_hunks. destruct x, y. cbn. intros E. injection E. intros; subst; auto. Qed.
Lemma opened_entry p x text A B y : patch_ok p -> patch_is p x -> lines_of_text text A -> patches true 1 1 A B (up_hunks p) -> blended_with text x y ->
  exists T, writes y T /\ T (repeat false (all_changes (up_hunks p))) = concat B /\
    (forall now, length now = all_changes (up_hunks p) -> mixture A (up_hunks p) now (T now)) /\
    dm_destination y = dm_destination x /\ dm_dpath y = dm_dpath x /\ dm_dfile y = dm_dfile x.
Proof.
  intros OK PI LT P (x0 & y0 & S0 & EB & S1). pose proof LT as LT'. apply C01_split_lossless in LT'. destruct (patch_fresh p x OK PI A B P) as (hs & L & CS & FH & TU & FR & LN).
  pose proof (so_links _ _ _ S0 L) as L0. destruct (blend_ok x0 hs text L0) as (mb & out & more & E & ES & LB & FI & SB & BL & FIT). rewrite EB in E. injection E as <-. rewrite LT' in FIT, FI. destruct (FIT B TU) as (OO & NN & GG).
  pose proof (so_links _ _ _ S1 LB) as L1. exists (fun now => concat (choose now (all_diffs out))).
  assert (PL : forall (Q : difference -> Prop), Forall Q (all_diffs hs) -> (forall d, d_type d = Unchanged -> lines_of (d_slines d) = lines_of (d_dlines d) -> pristine d -> Q d) -> Forall Q (all_diffs out)).
  { intros Q H1 H2. clear -FI H1 H2. unfold all_diffs in *. induction FI as [|q sk lines hs out _ _ IH|q lines hs out _ C _ IH]; [constructor| |]; cbn [map concat] in *.
    - apply Forall_app in H1 as [Q1 Q2]. apply Forall_app. auto.
    - apply Forall_app. split; [|auto]. destruct C as (d & -> & _ & _ & _ & TY & _ & C & PR). constructor; [|constructor]. auto. }
  assert (SC : same_context out). { apply PL; [|auto]. unfold context_same in CS. eapply Forall_impl; [|exact CS]. cbn. intros d H C. now apply H. }
  assert (PLAIN : Forall plain (all_diffs out)). { apply PL; [exact CS|]. intros d _ C (Q & _) _. split; [exact Q|exact C]. }
  assert (MX : forall now, length now = all_changes (up_hunks p) -> in_part 1 now A (up_hunks p) (choose now (all_diffs out))).
  { intros now LE. rewrite <- LN in LE. destruct (partly_exists _ _ _ _ _ TU now LE) as [R HR].
    assert (ER : choose now (all_diffs out) = R) by (eapply (partly_chosen _ _ _ FI 1 1 1 1 _ B []); [exact GG|exact TU|reflexivity|reflexivity|exact HR]). rewrite ER. eapply partly_in_part; eauto. }
  split; [now apply links_write|]. split; [|split].
  - f_equal. destruct (C62_mixture_ends A B (up_hunks p) (repeat false (all_changes (up_hunks p))) (concat (choose (repeat false (all_changes (up_hunks p))) (all_diffs out))) P) as [ND _].
    + eexists. split; [|reflexivity]. apply MX. apply repeat_length.
    + rewrite <- NN. apply choose_none; [exact PLAIN| |intros f I; now apply repeat_spec in I]. rewrite repeat_length.
      pose proof (ct_listed _ _ LB) as Q1. pose proof (ct_listed _ _ L0) as Q2. assert (D : dm_diffs y0 = dm_diffs x0) by (unfold same_but_hunks in SB; destruct x0, y0; cbn in *; injection SB; intros; subst; auto).
      rewrite D in Q1. apply deref_all_ok in Q1. apply deref_all_ok in Q2. rewrite <- LN. unfold all_diffs. destruct Q1 as [Q1 _], Q2 as [Q2 _]. unfold str, chr in *. congruence.
  - intros now LE. eexists. split; [now apply MX|reflexivity].
  - destruct (so_names _ _ S0) as (N1 & N2 & N3 & _), (so_names _ _ S1) as (M1 & M2 & M3 & _), (blend_names _ _ SB) as (K1 & K2 & K3). repeat split; congruence.
Qed.
Lemma kin_target i x y : kin x y -> save_target i y = save_target i x.
Proof. intros [(A1 & A2 & A3 & A4 & A5 & A6) _ _ _]. unfold save_target. now rewrite A4, A6. Qed.
Lemma patch_changes p x : patch_ok p -> patch_is p x -> length (dm_diffs x) = all_changes (up_hunks p).
Proof.
  intros OK (_ & hs & [L _] & F). pose proof (ct_listed _ _ L) as Q. apply deref_all_ok in Q as [Q _]. rewrite <- Q. unfold all_changes. clear -F.
  induction F as [|u q us hs (_ & _ & _ & _ & SG & _) F IH]; [reflexivity|]. cbn [map concat]. rewrite !filter_app, !app_length, IH, (seg_changes _ _ SG). reflexivity.
Qed.
(** * Opening puts the invariant in place *)
Lemma skipn_app_len {A} (a b : list A) : skipn (length a) (a ++ b) = b.
Proof. induction a; auto. Qed.
Lemma starts_app a b : starts_with a (a ++ b) = true.
Proof. induction a as [|x a IH]; [now destruct b|]. cbn. now rewrite N.eqb_refl. Qed.
Lemma last_slash (a b c d : str) : a ++ b = c ++ d -> ~ In SLASH d -> (exists l, a = l ++ [SLASH]) -> exists r, c = a ++ r /\ b = r ++ d.
Proof.
  revert c. induction a as [|x a IH]; intros c E N (l & EL); [destruct l; discriminate|]. destruct c as [|y c].
  - cbn in E. exfalso. apply N. rewrite <- E. change (x :: a ++ b) with ((x :: a) ++ b). rewrite EL. apply in_or_app. left. apply in_or_app. right. now left.
  - cbn in E. injection E as <- E. destruct l as [|z l].
    + cbn in EL. injection EL as -> ->. cbn in E. exists c. auto.
    + cbn in EL. injection EL as -> EL. destruct (IH c E N (ex_intro _ l EL)) as (r & -> & ->). exists r. auto.
Qed.
Lemma target_place i p x url : in_mode i = ComparingDirs -> cut_at_slash (unescape_path (up_new p)) (dm_dpath x) (dm_dfile x) -> place i p url -> save_target i x = url.
Proof.
  intros M [W F _] (rel & E & -> & S). unfold save_target. rewrite M. rewrite W in E. symmetry in E.
  assert (X : exists r, dm_dpath x = in_local_destination i ++ r /\ rel = r ++ dm_dfile x).
  { destruct S as [S|(r & ->)]; [now apply last_slash|]. change (in_local_destination i ++ SLASH :: r) with (in_local_destination i ++ [SLASH] ++ r) in E. rewrite app_assoc in E.
    destruct (last_slash _ _ _ _ E F ltac:(eauto)) as (q & Q1 & ->). exists (SLASH :: q). rewrite Q1, <- app_assoc. auto. }
  destruct X as (r & -> & ->). rewrite starts_app, skipn_app_len. reflexivity.
Qed.
(** The document read back, in the order of the list. *)
Lemma doc_models sort d : (forall l, Permutation (sort l) l) -> doc_ok d ->
  exists o ms order, parse sort (split_lines (doc_text d)) = Ok o /\ po_models o = Some ms /\ Permutation order (ud_files d) /\ Forall2 patch_is order ms.
Proof.
  intros HP OK. destruct (C16_unified_documents_read_back sort d HP OK) as (o & E & _ & _ & ms & PM & F).
  destruct (po_models o) as [ms'|] eqn:EM.
  - cbn [the_models] in PM. exists o, ms'. assert (X : exists order, Permutation order (ud_files d) /\ Forall2 patch_is order ms').
    { clear -PM F. symmetry in PM. revert PM F. generalize (ud_files d). intros ps PM. revert ps. induction PM as [|m l l' PM IH|a b l|l1 l2 l3 P1 IH1 P2 IH2]; intros ps F.
      - inversion F; subst. exists []. split; constructor.
      - inversion F as [|p ? ps' ? H F']; subst. destruct (IH _ F') as (o & P & Q). exists (p :: o). split; [now constructor|now constructor].
      - inversion F as [|p ? ps' ? H F']; subst. inversion F' as [|q ? ps'' ? H' F'']; subst. exists (q :: p :: ps''). split; [apply perm_swap|constructor; [exact H'|constructor; [exact H|exact F'']]].
      - destruct (IH1 _ F) as (o & P & Q). destruct (IH2 _ Q) as (o' & P' & Q'). exists o'. split; [now rewrite P'|exact Q']. }
    destruct X as (order & X1 & X2). exists order. auto.
  - exfalso. cbn [the_models] in PM. apply Permutation_nil in PM. subst. inversion F as [EE|]. destruct OK as [_ SO _ _ _ _]. congruence.
Qed.
Lemma opened_view order ms rw : Forall2 patch_is order ms -> Forall patch_ok order -> opened ms false rw = opened_files order rw.
Proof.
  intros F OK. unfold opened, opened_files. f_equal. induction F as [|p x ps ms H F IH]; [reflexivity|]. inversion_clear OK as [|? ? O1 O2]. cbn [map]. rewrite (patch_changes p x O1 H), IH by exact O2. reflexivity.
Qed.
Lemma build {A B} (P : nat -> A -> B -> Prop) : forall l, (forall k m, nth_error l k = Some m -> exists e, P k m e) ->
  exists es, length es = length l /\ forall k m, nth_error l k = Some m -> exists e, nth_error es k = Some e /\ P k m e.
Proof.
  intros l. revert P. induction l as [|m l IH]; intros P H; [exists []; split; [reflexivity|intros [|k] ? E; discriminate]|].
  destruct (H 0%nat m eq_refl) as (e & HE). destruct (IH (fun k => P (S k)) (fun k m' N => H (S k) m' N)) as (es & L & Q). exists (e :: es). split; [cbn; congruence|].
  intros [|k] m' N; cbn in N |- *; [injection N as <-; eauto|auto].
Qed.
Definition ready_entry (j : info) (order : list upatch) (f : files) (D : upatch -> str -> list str -> Prop) (k : nat) (y : dmodel) (e : entry) : Prop :=
  exists p A, nth_error order k = Some p /\ en_model e = y /\ writes y (en_text e) /\ en_text e (repeat false (all_changes (up_hunks p))) = text_at f (en_url e) /\
    (forall now, length now = all_changes (up_hunks p) -> mixture A (up_hunks p) now (en_text e now)) /\ save_target j y = en_url e /\ D p (en_url e) A /\
    length (dm_diffs y) = all_changes (up_hunks p).
Lemma run_opened j order rw s f D : shows s (opened_files order rw) -> ml_info s = Some j ->
  holds s (fun k y => exists e, ready_entry j order f D k y e) (length order) ->
  (forall k k' p p' url A A', nth_error order k = Some p -> nth_error order k' = Some p' -> D p url A -> D p' url A' -> k = k') ->
  forall ops v, Forall (fits j) ops -> vrun (opened_files order rw) ops = Some v ->
  exists s' f', runs_on s f ops = Ok (s', f') /\ run_lops s ops = Ok s' /\ shows s' v /\
    (forall k p, nth_error order k = Some p -> exists url A, D p url A /\ mixture A (up_hunks p) (saved_of v k) (text_at f' url)) /\
    (forall u, (forall p A, In p order -> ~ D p u A) -> f' u = f u).
Proof.
  intros SH I (l & M & LL & HO) DI ops v FI V.
  destruct (build (fun k m e => exists y, model_of s m = Ok y /\ ready_entry j order f D k y e) l) as (es & LE & ES).
  { intros k m N. destruct (HO k m N) as (y & Y & e & RE). eauto. }
  assert (AT : forall k e, nth_error es k = Some e -> exists m y, nth_error l k = Some m /\ model_of s m = Ok y /\ ready_entry j order f D k y e).
  { intros k e N. assert (X : (k < length l)%nat) by (apply nth_some_lt in N; lia). destruct (nth_error_Some_lt _ _ X) as [m NM]. destruct (ES k m NM) as (e' & N' & y & Y & RE). rewrite N in N'. injection N' as <-. eauto. }
  assert (EO : entries_ok j es).
  { split.
    - apply Forall_forall. intros e IE. apply In_nth_error in IE as [k N]. destruct (AT k e N) as (m & y & _ & _ & p & A & _ & -> & W & _). exact W.
    - apply Forall_forall. intros e IE x K. apply In_nth_error in IE as [k N]. destruct (AT k e N) as (m & y & _ & _ & p & A & _ & EM & _ & _ & _ & T & _). rewrite EM in K. rewrite (kin_target j y x K). exact T.
    - apply NoDup_nth_error. intros k k' LK E. rewrite map_length in LK. destruct (nth_error_Some_lt _ _ LK) as [e N]. rewrite !nth_error_map, N in E. cbn in E. destruct (nth_error es k') as [e'|] eqn:N'; [|discriminate]. injection E as E.
      destruct (AT k e N) as (m & y & _ & _ & p & A & P & _ & _ & _ & _ & _ & DP & _). destruct (AT k' e' N') as (m' & y' & _ & _ & p' & A' & P' & _ & _ & _ & _ & _ & DP' & _).
      rewrite <- E in DP'. eapply DI; eauto. }
  assert (K0 : kept_up j es s f (opened_files order rw)).
  { split; [exact SH|exact I| | |].
    - intros l' k m M' N. rewrite M in M'. injection M' as <-. destruct (ES k m N) as (e & NE & y & Y & RE). exists e, y. split; [exact NE|]. split; [exact Y|]. destruct RE as (p & A & _ & -> & _). apply kin_refl.
    - cbn. rewrite map_length. congruence.
    - assert (Q : length es = length order) by congruence. clear -AT Q. cbn [opened_files v_flags]. assert (X : forall k e p, nth_error es k = Some e -> nth_error order k = Some p -> stored f e (repeat false (all_changes (up_hunks p)))).
      { intros k e p N P. destruct (AT k e N) as (m & y & _ & _ & p' & A & P' & _ & _ & T & _). rewrite P in P'. injection P' as <-. unfold stored. now symmetry. }
      clear AT. revert es Q X. induction order as [|p ps IH]; intros [|e es] Q X; cbn in Q; try lia; constructor; [exact (X 0%nat e p eq_refl eq_refl)|]. apply IH; [lia|]. intros k. exact (X (S k)). }
  destruct (run_files j es EO ops s f _ v K0 FI V) as (s' & f' & R & RL & K & U). exists s', f'. split; [exact R|]. split; [exact RL|]. split; [apply K|]. split.
  - intros k p NP. assert (X : (k < length es)%nat) by (apply nth_some_lt in NP; lia). destruct (nth_error_Some_lt _ _ X) as [e N]. destruct (AT k e N) as (m & y & NM & _ & p' & A & P' & EM & W & T & MX & TG & DP & LD). rewrite NP in P'. injection P' as <-.
    exists (en_url e), A. split; [exact DP|]. destruct (Forall2_at _ _ _ _ _ (ku_disk _ _ _ _ _ K) N) as (fl & NF & ST). unfold stored in ST. rewrite ST. unfold saved_of. rewrite NF. apply MX.
    destruct (shows_split s' v) as [SS _]. destruct (SS (ku_shows _ _ _ _ _ K)) as (_ & l' & m0 & TI & _). pose proof TI as (T1 & T2 & T3). destruct (Forall2_at' _ _ _ _ _ T3 NF) as (m' & NM' & x & EX & MS).
    destruct (ku_models _ _ _ _ _ K l' k m' T1 NM') as (e' & x' & NE' & EX' & KX). rewrite N in NE'. injection NE' as <-. rewrite EX in EX'. injection EX' as <-. rewrite (ms_saved _ _ _ MS), <- (ms_len _ _ _ MS), (kn_diffs _ _ KX), EM. exact LD.
  - intros u NU. apply U. intros IU. apply in_map_iff in IU as (e & <- & IE). apply In_nth_error in IE as [k N]. destruct (AT k e N) as (m & y & _ & _ & p & A & P & _ & _ & _ & _ & _ & DP & _). apply (NU p A); [eapply nth_error_In; exact P|exact DP].
Qed.
Lemma blended_diffs t x y : (exists hs, links x hs) -> blended_with t x y -> dm_diffs y = dm_diffs x.
Proof.
  intros (hs & L) (x0 & y0 & S0 & E & S1). pose proof (so_links _ _ _ S0 L) as L0. destruct (blend_ok x0 hs t L0) as (mb & out & more & E' & _ & _ & _ & SB & _). rewrite E in E'. injection E' as <-.
  unfold same_but_hunks in SB. unfold sel_only in *. rewrite S1, S0 in *. destruct y0, x. cbn in *. injection SB. intros; subst; reflexivity.
Qed.

(** * C62: two files *)
Lemma one_file_session :
  forall o s i st err d p A B f, (forall l, Permutation (os_sort o l) l) -> doc_ok d -> ud_files d = [p] ->
  ml_process s = true -> ml_info s = Some i -> in_mode i <> ComparingDirs -> in_mode i <> ShowingDiff ->
  os_is_dir o (in_local_source i) = false -> os_is_file o (in_local_source i) = true -> lines_of_text (os_read o (in_local_source i)) A ->
  patches true 1 1 A B (up_hunks p) -> text_at f (in_destination i) = concat B ->
  exists s', slot_diff_process_finished o s true st (doc_text d) err = Ok s' /\ shows s' (opened_files [p] (ml_rw s)) /\
  forall ops v, Forall (fits i) ops -> vrun (opened_files [p] (ml_rw s)) ops = Some v ->
  exists s'' f', runs_on s' f ops = Ok (s'', f') /\ run_lops s' ops = Ok s'' /\ shows s'' v /\
    mixture A (up_hunks p) (saved_of v 0) (text_at f' (in_destination i)) /\
    (has_unsaved_changes s'' = Ok false -> mixture A (up_hunks p) (now_of v 0) (text_at f' (in_destination i))) /\
    (forall u, u <> in_destination i -> f' u = f u).
Proof.
  intros o s i st err d p A B f HP OK DF PR I MD MSH ND NF LT P TB. destruct (doc_models _ d HP OK) as (po & ms & order & EP & EM & PO & F). rewrite DF in PO. symmetry in PO. apply Permutation_length_1_inv in PO. subst order.
  inversion F as [|? x ? ms' PI F' E1 E2]. inversion F' as [E3|]. subst ms ms'. assert (OKP : patch_ok p) by (pose proof (do_files _ OK) as Q; rewrite DF in Q; now inversion Q).
  destruct (process_ok o s po [x] i st (doc_text d) err PR I (conj HP (conj EP EM))) as (s' & E & SH & _ & HO & I' & _). exists s'. split; [exact E|].
  rewrite (opened_view [p] [x] _ F) in SH by (constructor; [exact OKP|constructor]). split; [exact SH|]. intros ops v FI V. set (j := with_parsed i (po_generator po) (po_format po)) in *.
  destruct (run_opened j [p] (ml_rw s) s' f (fun q url A' => q = p /\ url = in_destination i /\ A' = A) SH I') with (ops := ops) (v := v) as (s'' & f' & R & RL & S2 & MX & UT).
  - destruct HO as (l0 & M & LL & HO). exists l0. split; [exact M|]. split; [exact LL|]. intros k m N. destruct (HO k m N) as (y & Y & x2 & x1 & NX & S0 & OR). exists y. split; [exact Y|].
    destruct k as [|k]; [|destruct k; discriminate]. cbn in NX. injection NX as <-. assert (MF : mode_eqb (in_mode i) ShowingDiff = false) by (destruct (in_mode i); try reflexivity; exfalso; apply MSH; reflexivity). rewrite MF in OR. unfold SpecList.original in OR. rewrite ND, NF in OR. pose proof (so_blended _ _ _ _ S0 OR) as BW.
    destruct (opened_entry p x _ A B y OKP PI LT P BW) as (T & W & T0 & TM & _). exists (mk_entry y T (in_destination i)). exists p, A. cbn. repeat (split; [first [reflexivity|assumption]|]).
    split; [rewrite T0; now symmetry|]. split; [exact TM|]. split; [unfold save_target; cbn; destruct (in_mode i); try reflexivity; exfalso; apply MD; reflexivity|]. split; [auto|]. rewrite (blended_diffs (os_read o (in_local_source i)) x y); [|destruct PI as (_ & hs & [L _] & _); eauto|exact BW]. now apply patch_changes.
  - intros [|k] [|k'] ? ? ? ? ? N1 N2; cbn in N1, N2; try reflexivity; destruct k || destruct k'; discriminate.
  - exact FI.
  - exact V.
  - exists s'', f'. split; [exact R|]. split; [exact RL|]. split; [exact S2|]. destruct (MX 0%nat p eq_refl) as (url & A' & (_ & -> & ->) & MX0). split; [exact MX0|]. split.
    + intros HU. rewrite (ob_unsaved _ _ (observed_ok _ _ S2)) in HU. injection HU as HU. assert (X : now_of v 0 = saved_of v 0); [|now rewrite X].
      destruct (shows_split s'' v) as [SS _]. destruct (SS S2) as (_ & l' & m0 & (T1 & T2 & T3) & _). unfold now_of, saved_of. destruct (v_flags v) as [|fl fls]; [reflexivity|]. cbn in HU |- *. inversion T3 as [|? ? ? ? (z & _ & MS) _]; subst. destruct fl as [a b].
      apply unsaved_same; [apply MS|]. cbn [fst snd]. now apply orb_false_iff in HU.
    + intros u NU. apply UT. intros q A' _ (_ & E4 & _). congruence.
Qed.
(** The diff process has ended with a document about one file, whose hunks turn the source into what the destination holds.
    Whatever the user does then, the destination file always is the source with the changes worked in that were not
    applied at the last save that succeeded, and no other file is touched. *)
Theorem C62_destination_file_is_the_saved_mixture :
  forall o s i st err d p A B f, (forall l, Permutation (os_sort o l) l) -> doc_ok d -> ud_files d = [p] ->
  ml_process s = true -> ml_info s = Some i -> in_mode i = ComparingFiles ->
  os_is_dir o (in_local_source i) = false -> os_is_file o (in_local_source i) = true -> lines_of_text (os_read o (in_local_source i)) A ->
  patches true 1 1 A B (up_hunks p) -> text_at f (in_destination i) = concat B ->
  exists s', slot_diff_process_finished o s true st (doc_text d) err = Ok s' /\ shows s' (opened_files [p] (ml_rw s)) /\
  forall ops v, Forall (fits i) ops -> vrun (opened_files [p] (ml_rw s)) ops = Some v ->
  exists s'' f', runs_on s' f ops = Ok (s'', f') /\ run_lops s' ops = Ok s'' /\ shows s'' v /\
    mixture A (up_hunks p) (saved_of v 0) (text_at f' (in_destination i)) /\
    (has_unsaved_changes s'' = Ok false -> mixture A (up_hunks p) (now_of v 0) (text_at f' (in_destination i))) /\
    (forall u, u <> in_destination i -> f' u = f u).
Proof. intros o s i st err d p A B f HP OK DF PR I MO. apply (one_file_session o s i st err d p A B f HP OK DF PR I); rewrite MO; discriminate. Qed.
Print Assumptions C62_destination_file_is_the_saved_mixture.

(** * C63: two directories *)
(** The same for directories: each file of the diff has its place under the destination, and what is there always is the
    source file with the changes worked in that were not applied at the last save of that file; no other file is touched. *)
Theorem C63_destination_directory_is_the_saved_mixture :
  forall o s i st err d f, (forall l, Permutation (os_sort o l) l) -> doc_ok d ->
  ml_process s = true -> ml_info s = Some i -> in_mode i = ComparingDirs -> os_is_dir o (in_local_source i) = true ->
  NoDup (map (fun p => unescape_path (up_new p)) (ud_files d)) ->
  (forall p, In p (ud_files d) -> exists url A B, place i p url /\ lines_of_text (source_text o (in_local_source i) (unescape_path (up_old p))) A /\
     patches true 1 1 A B (up_hunks p) /\ text_at f url = concat B) ->
  exists s' order, slot_diff_process_finished o s true st (doc_text d) err = Ok s' /\ Permutation order (ud_files d) /\ shows s' (opened_files order (ml_rw s)) /\
  forall ops v, Forall (fits i) ops -> vrun (opened_files order (ml_rw s)) ops = Some v ->
  exists s'' f', runs_on s' f ops = Ok (s'', f') /\ run_lops s' ops = Ok s'' /\ shows s'' v /\
    (forall k p url A, nth_error order k = Some p -> place i p url -> lines_of_text (source_text o (in_local_source i) (unescape_path (up_old p))) A ->
       mixture A (up_hunks p) (saved_of v k) (text_at f' url)) /\
    (forall u, (forall p, In p (ud_files d) -> ~ place i p u) -> f' u = f u).
Proof.
  intros o s i st err d f HP OK PR I MO ND DUP HF. destruct (doc_models _ d HP OK) as (po & ms & order & EP & EM & PO & F).
  assert (OKP : Forall patch_ok order) by (eapply Permutation_Forall; [symmetry; exact PO|apply OK]).
  destruct (process_ok o s po ms i st (doc_text d) err PR I (conj HP (conj EP EM))) as (s' & E & SH & _ & HO & I' & _). exists s', order. split; [exact E|]. split; [exact PO|].
  rewrite (opened_view order ms _ F OKP) in SH. split; [exact SH|]. intros ops v FI V. set (j := with_parsed i (po_generator po) (po_format po)) in *.
  assert (PL : forall p url url', place i p url -> place i p url' -> url = url').
  { intros p url url' (r & E1 & -> & _) (r' & E2 & -> & _). rewrite E1 in E2. apply app_inv_head in E2. now subst. }
  destruct (run_opened j order (ml_rw s) s' f (fun q url A' => place i q url /\ lines_of_text (source_text o (in_local_source i) (unescape_path (up_old q))) A') SH I') with (ops := ops) (v := v) as (s'' & f' & R & RL & S2 & MX & UT).
  - rewrite (Forall2_len _ _ _ F). destruct HO as (l & M & LL & HO). exists l. split; [exact M|]. split; [exact LL|]. intros k m N. destruct (HO k m N) as (y & Y & x & x1 & NX & S0 & OR). exists y. split; [exact Y|].
    destruct (Forall2_at' _ _ _ _ _ F NX) as (p & NP & PI). rewrite MO in OR. cbn [mode_eqb] in OR. unfold SpecList.original in OR. rewrite ND in OR. pose proof (so_blended _ _ _ _ S0 OR) as BW.
    assert (IP : In p (ud_files d)) by (eapply Permutation_in; [exact PO|eapply nth_error_In; exact NP]). destruct (HF p IP) as (url & A & B & PLC & LT & P & TB).
    assert (OKp : patch_ok p) by (rewrite Forall_forall in OKP; apply OKP; eapply nth_error_In; exact NP).
    assert (TX : dir_text o (in_local_source i) x1 = source_text o (in_local_source i) (unescape_path (up_old p))).
    { unfold dir_text, source_text. destruct PI as (NM & _). rewrite (so_source _ _ S0), (nm_source _ _ _ _ _ NM). reflexivity. }
    rewrite TX in BW. destruct (opened_entry p x _ A B y OKp PI LT P BW) as (T & W & T0 & TM & N1 & N2 & N3). exists (mk_entry y T url). exists p, A. cbn. repeat (split; [first [reflexivity|assumption]|]).
    split; [rewrite T0; now symmetry|]. split; [exact TM|]. split.
    { apply (target_place j p y url); [exact MO| |exact PLC]. destruct PI as (NM & _). rewrite N2, N3. exact (nm_destination_cut _ _ _ _ _ NM). }
    split; [auto|]. rewrite (blended_diffs (source_text o (in_local_source i) (unescape_path (up_old p))) x y); [|destruct PI as (_ & hs & [L _] & _); eauto|exact BW]. now apply patch_changes.
  - assert (DUP' : NoDup (map (fun p => unescape_path (up_new p)) order)) by (eapply Permutation_NoDup; [apply Permutation_map; symmetry; exact PO|exact DUP]).
    intros k k' p p' url A A' N1 N2 ((r & E1 & U1 & _) & _) ((r' & E2 & U2 & _) & _). eapply NoDup_nth_error; [exact DUP'|rewrite map_length; eapply nth_some_lt; exact N1|]. rewrite !nth_error_map, N1, N2. cbn. f_equal.
    rewrite U1 in U2. apply app_inv_head in U2. subst r'. congruence.
  - exact FI.
  - exact V.
  - exists s'', f'. split; [exact R|]. split; [exact RL|]. split; [exact S2|]. split.
    + intros k p url A NP PLC LT. destruct (MX k p NP) as (url' & A' & (PLC' & LT') & MX0). rewrite (PL _ _ _ PLC PLC'). apply C01_split_lossless in LT, LT'. rewrite LT in LT'. subst A'. exact MX0.
    + intros u NU. apply UT. intros q A' IQ (PLC & _). apply (NU q); [eapply Permutation_in; [exact PO|exact IQ]|exact PLC].
Qed.
Print Assumptions C63_destination_directory_is_the_saved_mixture.

(** * C64: nothing but the destination is written *)
(** Whatever is done to a list in whatever state: a file whose url changes its contents is the destination when files are
    compared, and has a url that begins with the destination when directories are. *)
Definition within (i : info) (url : str) : Prop :=
  match in_mode i with ComparingDirs => exists rest, url = in_destination i ++ rest | _ => url = in_destination i end.
Lemma target_within i x : within i (save_target i x).
Proof. unfold within, save_target. destruct (in_mode i); try reflexivity. eexists. reflexivity. Qed.
Lemma save_model_within i e s f m s' f' b : ml_info s = Some i -> save_model_on e s f m = Ok (s', f', b) -> ml_info s' = Some i /\ forall u, ~ within i u -> f' u = f u.
Proof.
  intros I H. unfold save_model_on in H. step H. unfold the_info in H. rewrite I in H. cbn [bind] in H. step H. step H. destruct a1 as [s1 b1]. cbn [fst snd] in H. injection H as <- <- <-. apply pres_save in E1. split; [rewrite (proj1 E1); exact I|].
  intros u N. unfold copied. destruct (so_written a0); [|reflexivity]. apply file_other. intros <-. apply N, target_within.
Qed.
Lemma save_models_within i envs : forall l k s f s' f' b, ml_info s = Some i -> save_models_on envs k s f l = Ok (s', f', b) -> ml_info s' = Some i /\ forall u, ~ within i u -> f' u = f u.
Proof.
  induction l as [|m l IH]; intros k s f s' f' b I H; cbn [save_models_on] in H; [injection H as <- <- <-; auto|]. step H. destruct a as [[s1 f1] b1]. destruct (save_model_within _ _ _ _ _ _ _ _ I E) as [I1 U1].
  destruct b1; [|injection H as <- <- <-; auto]. destruct (IH _ _ _ _ _ _ I1 H) as [I2 U2]. split; [exact I2|]. intros u N. rewrite U2 by exact N. now apply U1.
Qed.
Theorem C64_only_the_destination_is_written :
  forall ops s f i s' f', ml_info s = Some i -> runs_on s f ops = Ok (s', f') -> forall url, ~ within i url -> f' url = f url.
Proof.
  assert (ST : forall o s f i s' f', ml_info s = Some i -> run_on s f o = Ok (s', f') -> ml_info s' = Some i /\ forall u, ~ within i u -> f' u = f u).
  { intros o s f i s' f' I H. assert (Q : (do s <- run_lop s o; Ok (s, f)) = Ok (s', f') -> ml_info s' = Some i /\ forall u, ~ within i u -> f' u = f u).
    { intros X. step X. injection X as <- <-. apply pres_run in E. split; [rewrite (proj1 E); exact I|auto]. }
    destruct o as [| | | |? ?|?|?|?| | |?|e|envs|?]; cbn [run_on] in H; try (exact (Q H)); clear Q.
    - unfold slot_save_on in H. destruct (ml_sel s); [|injection H as <- <-; auto]. unfold the_info in H. rewrite I in H. cbn [bind] in H. step H. step H. injection H as <- <-. destruct a as [[s1 f1] b1]. cbn [fst snd].
      destruct (save_model_within _ _ _ _ _ _ _ _ I E) as [_ U]. apply pres_slot_save in E0. split; [rewrite (proj1 E0); exact I|exact U].
    - step H. destruct a as [[s1 f1] b1]. injection H as <- <-. unfold save_all_on in E. destruct (Z.eqb _ _); [injection E as <- <- _; auto|]. step E. eapply save_models_within; eauto. }
  induction ops as [|o ops IH]; intros s f i s' f' I H url N; cbn [runs_on] in H; [injection H as <- <-; reflexivity|]. step H. destruct a as [s1 f1]. cbn [fst snd] in H. destruct (ST _ _ _ _ _ _ I E) as [I1 U1].
  rewrite (IH _ _ _ _ _ I1 H url N). now apply U1.
Qed.
Print Assumptions C64_only_the_destination_is_written.

(** * Examples *)
(** Two files are compared: the sample of C55. *)
Definition here : outside := mk_outside (fun l => l) (fun _ => concat sample_old) (fun _ => false) (fun _ => true) (fun _ => true) (fun _ => false) (fun a b => (a ++ lit "/" ++ b)%list).
Definition two_urls : info := mk_info ComparingFiles DefaultDiffMode Unified None (lit "/old") (lit "/new") (lit "/old") (lit "/new") None None 0 true.
Definition comparing : mlist := compare_mode (slot_kompare_info (new_mlist true) two_urls).
Definition disk : files := put_file (put_file (fun _ => None) (lit "/old") (concat sample_old)) (lit "/new") (concat sample_new).
Example C62_example : doc_ok canonical_doc /\ length (ud_files canonical_doc) = 1%nat /\ ml_process comparing = true /\ ml_info comparing = Some two_urls /\
  lines_of_text (os_read here (in_local_source two_urls)) sample_old /\ patches true 1 1 sample_old sample_new sample_hunks /\ text_at disk (in_destination two_urls) = concat sample_new /\
  vrun (mk_view [([false; false], [false; false])] 0 0 true) [LActApply; LSave good; LApply true; LActApplyAll true] = Some (mk_view [([true; true], [true; false])] 0 1 true).
Proof. destruct C17_example as [OK _]. destruct C55_example as (P & _ & LT). split; [exact OK|]. repeat (split; [reflexivity|]). split; [exact LT|]. split; [exact P|]. split; reflexivity. Qed.
(** The first change applied and saved, then more changes that are not saved: the file has the second change only. *)
Example C62_computed :
  (do s <- slot_diff_process_finished here comparing true NormalExit (doc_text canonical_doc) [];
   do r <- runs_on s disk [LActApply; LSave good; LApply true; LActApplyAll true];
   Ok (text_at (snd r) (lit "/new"), text_at (snd r) (lit "/old"))) =
  Ok (concat (lines ["1"; "2"; "a"; ""; "b"; "e"; "7"; "8"; "9"; "10"; "11"; "12"; "13"; "14"; "15"; "16"; "17"; "18"; "19"; "x"; "y"; "21"]%string), concat sample_old).
Proof. vm_compute. reflexivity. Qed.

(** Two directories are compared: a changed file and, in a subdirectory, a file that is new. *)
Definition dir_doc : udoc := mk_ud
  [mk_up [nl "diff -uNr /a/f /b/f"] (lit "/a/f") (lit "/b/f") (lit "2020") (lit "2021") None None
     [mk_uh 1 1 false false [] [Ctx [nl "one"]; Chg [nl "two"] [nl "zwei"]]];
   mk_up [nl "diff -uNr /a/s/g /b/s/g"] (lit "/a/s/g") (lit "/b/s/g") (lit "1970") (lit "2021") None None
     [mk_uh 1 1 false false [] [Chg [] [nl "new"; nl "file"]]]] [].
Definition dir_world : outside := mk_outside (fun l => rev l) (fun n => if str_eqb n (lit "/a/f") then text_of ["one"; "two"]%string else []) (fun n => orb (str_eqb n (lit "/a/")) (str_eqb n (lit "/b/")))
  (fun _ => true) (fun n => str_eqb n (lit "/a/f")) (fun _ => false) (fun a b => (a ++ b)%list).
Definition dir_info : info := mk_info ComparingDirs DefaultDiffMode Unified None (lit "file:///a/") (lit "file:///b/") (lit "/a/") (lit "/b/") None None 0 true.
Definition dir_list : mlist := compare_mode (slot_kompare_info (new_mlist true) dir_info).
Definition dir_disk : files := put_file (put_file (fun _ => None) (lit "file:///b/f") (text_of ["one"; "zwei"]%string)) (lit "file:///b/s/g") (text_of ["new"; "file"]%string).
Lemma dir_doc_ok : doc_ok dir_doc.
Proof.
  assert (IN : forall c s, existsb (N.eqb c) s = false -> ~ In c s).
  { intros c s H I. rewrite (proj2 (existsb_exists _ _) (ex_intro _ c (conj I (N.eqb_refl c)))) in H. discriminate. }
  assert (TL : forall s, ~ In NL (lit s) -> (N.of_nat (length (nl s)) < 65534)%N -> text_line (nl s)) by (intros s N L; exists (lit s); split; [exact N|]; split; [right; reflexivity|exact L]).
  assert (BL : forall s, ~ In NL (lit s) -> (exists x, lit s = lit "diff " ++ x) -> between_line (nl s)).
  { intros s N (x & E). unfold nl. rewrite E in *. split; [exists (lit "diff " ++ x); auto|..]; intros Q; [destruct Q as (y & Q); discriminate Q|destruct Q as (y & Q); discriminate Q|destruct Q as (y & Q); discriminate Q]. }
  split.
  - repeat apply Forall_cons; [| |constructor]; (split; [repeat (apply Forall_cons; [apply BL; [apply IN; reflexivity|eexists; reflexivity]|]); constructor|..]).
    all: try (split; [discriminate|split; apply IN; reflexivity]). all: try (split; [apply IN; reflexivity|split; [apply IN; reflexivity|exact I]]).
    all: try (apply Exists_cons_hd; apply Exists_cons_hd; exact I). all: try (apply Exists_cons_hd; apply Exists_cons_tl; apply Exists_cons_hd; exact I).
    all: apply Forall_cons; [|constructor]; (split; [split; cbn; lia|split; cbn; lia|vm_compute; discriminate|vm_compute; discriminate|apply IN; reflexivity| |repeat constructor]).
    all: repeat (apply Forall_cons; [split; [|split; [|intros [Q1 Q2]; discriminate]]|]); try constructor; try (repeat (apply Forall_cons; [apply TL; [apply IN; reflexivity|reflexivity]|]); constructor).
    all: try (apply TL; [apply IN; reflexivity|reflexivity]). all: try (repeat (apply Forall_cons; [apply TL; [apply IN; reflexivity|reflexivity]|]); constructor).
  - discriminate.
  - constructor.
  - intros p ps E. injection E as <- _. constructor; [|constructor]. split; [intros (x & Q); discriminate Q|]. split.
    + intros c x Q. injection Q as <- _. reflexivity.
    + intros c d x Q. injection Q as <- <- _. reflexivity.
  - intros p ps E. injection E as _ <-. constructor; [|constructor; [|constructor]]; intros l ls Q; [|discriminate]. injection Q as <- _. left. eexists. reflexivity.
  - intros p ps E Q. injection E as <- _. discriminate Q.
Qed.
Definition good_dirs : save_env := mk_save_env true true true true true true true.
Example C63_example : doc_ok dir_doc /\ ml_process dir_list = true /\ ml_info dir_list = Some dir_info /\ os_is_dir dir_world (in_local_source dir_info) = true /\
  NoDup (map (fun p => unescape_path (up_new p)) (ud_files dir_doc)) /\
  (forall p, In p (ud_files dir_doc) -> exists url A B, place dir_info p url /\ lines_of_text (source_text dir_world (in_local_source dir_info) (unescape_path (up_old p))) A /\
     patches true 1 1 A B (up_hunks p) /\ text_at dir_disk url = concat B).
Proof.
  assert (PF : place dir_info (mk_up [] [] (lit "/b/f") [] [] None None []) (lit "file:///b/f")).
  { exists (lit "f"). split; [vm_compute; reflexivity|]. split; [reflexivity|]. left. exists (lit "/b"). reflexivity. }
  assert (PG : place dir_info (mk_up [] [] (lit "/b/s/g") [] [] None None []) (lit "file:///b/s/g")).
  { exists (lit "s/g"). split; [vm_compute; reflexivity|]. split; [reflexivity|]. left. exists (lit "/b"). reflexivity. }
  split; [exact dir_doc_ok|]. repeat (split; [reflexivity|]). split.
  - constructor; [|constructor; [intros []|constructor]]. intros [Q|[]]. vm_compute in Q. discriminate Q.
  - assert (K : forall h old new, uh_a h = 1 -> uh_b h = 1 -> old = concat (map src_lines (uh_segs h)) -> new = concat (map dst_lines (uh_segs h)) -> patches true 1 1 old new [h]).
    { intros h old new E1 E2 -> ->. pose proof (pt_hunk true 1 1 [] [] [] h [] ltac:(discriminate) ltac:(rewrite E1; reflexivity) ltac:(rewrite E2; reflexivity) (pt_end _ _ _ [])) as Q. cbn [app] in Q. now rewrite !app_nil_r in Q. }
    intros p [<-|[<-|[]]].
    + exists (lit "file:///b/f"), [nl "one"; nl "two"], [nl "one"; nl "zwei"]. split; [exact PF|]. split; [apply C01_split_lossless; vm_compute; reflexivity|]. split; [apply K; reflexivity|reflexivity].
    + exists (lit "file:///b/s/g"), [], [nl "new"; nl "file"]. split; [exact PG|]. split; [apply C01_split_lossless; vm_compute; reflexivity|]. split; [apply K; reflexivity|reflexivity].
Qed.
(** The list has the second file first. It is turned back and everything saved; then the other one is turned back, and only
    that is not saved. *)
Example C63_computed :
  (do s <- slot_diff_process_finished dir_world dir_list true NormalExit (doc_text dir_doc) [];
   do r <- runs_on s dir_disk [LApplyAll true; LSaveAll (fun _ => good_dirs); LNextFile; LApplyAll true];
   Ok (text_at (snd r) (lit "file:///b/f"), snd r (lit "file:///b/s/g"), snd r (lit "file:///a/f"))) =
  Ok (text_of ["one"; "zwei"]%string, Some [], None).
Proof. vm_compute. reflexivity. Qed.

(** C64, the other half: what is written is a file the user compared. When a diff is blended into a file, saving overwrites
    the diff, the file itself stays as it was. *)
Definition blend_urls : info := mk_info BlendingFile DefaultDiffMode Unified None (lit "/old") (lit "/my.diff") (lit "/old") (lit "/my.diff") None None 0 true.
Definition blend_world : outside := mk_outside (fun l => l) (fun n => if str_eqb n (lit "/my.diff") then doc_text canonical_doc else concat sample_old) (fun _ => false) (fun _ => true) (fun _ => true)
  (fun _ => false) (fun a b => (a ++ lit "/" ++ b)%list).
Definition blend_disk : files := put_file (put_file (fun _ => None) (lit "/old") (concat sample_old)) (lit "/my.diff") (doc_text canonical_doc).
Theorem C64_blending_writes_the_source_refuted :
  exists o s i f ops s1 s' f', ml_info s = Some i /\ in_mode i = BlendingFile /\ open_and_blend o s = Ok (s1, true) /\ runs_on s1 f ops = Ok (s', f') /\
    f (in_source i) = Some (os_read o (in_local_source i)) /\ f (in_destination i) = Some (os_read o (in_local_destination i)) /\
    f' (in_source i) = f (in_source i) /\ f' (in_destination i) <> f (in_destination i) /\ f' (in_destination i) = f (in_source i).
Proof.
  assert (R : match open_and_blend blend_world (slot_kompare_info (new_mlist true) blend_urls) with
    | Ok (s1, b) => match runs_on s1 blend_disk [LActApplyAll true; LSave good] with
                    | Ok (_, f') => (b, f' (in_source blend_urls), f' (in_destination blend_urls)) = (true, Some (concat sample_old), Some (concat sample_old)) | _ => False end
    | _ => False end) by (vm_compute; reflexivity).
  exists blend_world, (slot_kompare_info (new_mlist true) blend_urls), blend_urls, blend_disk, [LActApplyAll true; LSave good].
  destruct (open_and_blend blend_world (slot_kompare_info (new_mlist true) blend_urls)) as [[s1 b]| |]; [|destruct R..].
  destruct (runs_on s1 blend_disk [LActApplyAll true; LSave good]) as [[s' f']| |] eqn:E2; [|destruct R..].
  apply pair_equal_spec in R as [R R3]. apply pair_equal_spec in R as [-> R2]. exists s1, s', f'. do 3 (split; [reflexivity|]). split; [exact E2|]. rewrite R2, R3.
  repeat (split; [reflexivity|]). split; [intros Q; vm_compute in Q; discriminate Q|reflexivity].
Qed.
Print Assumptions C64_blending_writes_the_source_refuted.
(** With a directory, every file of the diff is written to the same url. *)
Definition blend_dir_urls : info := mk_info BlendingDir DefaultDiffMode Unified None (lit "/a/") (lit "/my.diff") (lit "/a/") (lit "/my.diff") None None 0 true.
Definition blend_dir_world : outside := mk_outside (fun l => l) (fun n => if str_eqb n (lit "/my.diff") then doc_text dir_doc else if str_eqb n (lit "/a/f") then text_of ["one"; "two"]%string else [])
  (fun n => str_eqb n (lit "/a/")) (fun n => negb (str_eqb n (lit "/a/"))) (fun n => str_eqb n (lit "/a/f")) (fun _ => false) (fun a b => (a ++ b)%list).
Definition blend_dir_disk : files := put_file (fun _ => None) (lit "/my.diff") (doc_text dir_doc).
Theorem C64_each_file_has_its_own_place_refuted :
  exists o s i f ops s' f', ml_info s = Some i /\ in_mode i = BlendingDir /\
    (do r <- open_and_blend o s; do r <- runs_on (fst r) f ops; Ok (fst r, snd r)) = Ok (s', f') /\
    model_count s' = 2 /\ has_unsaved_changes s' = Ok false /\ f (in_destination i) = Some (os_read o (in_local_destination i)) /\
    f' (in_destination i) = Some [] /\ forall url, url <> in_destination i -> f' url = f url.
Proof.
  assert (R : match open_and_blend blend_dir_world (slot_kompare_info (new_mlist true) blend_dir_urls) with
    | Ok (s1, _) => match runs_on s1 blend_dir_disk [LApplyAll true; LNextFile; LApplyAll true; LSaveAll (fun _ => good)] with
                    | Ok (s', f') => (model_count s', has_unsaved_changes s', f' (in_destination blend_dir_urls)) = (2, Ok false, Some []) | _ => False end /\
                    match ml_info s1 with Some j => (in_mode j, in_destination j) = (BlendingDir, in_destination blend_dir_urls) | None => False end
    | _ => False end) by (vm_compute; split; reflexivity).
  exists blend_dir_world, (slot_kompare_info (new_mlist true) blend_dir_urls), blend_dir_urls, blend_dir_disk, [LApplyAll true; LNextFile; LApplyAll true; LSaveAll (fun _ => good)].
  destruct (open_and_blend blend_dir_world (slot_kompare_info (new_mlist true) blend_dir_urls)) as [[s1 b]| |]; [|destruct R..]. destruct R as [R I]. cbn [bind fst].
  destruct (runs_on s1 blend_dir_disk [LApplyAll true; LNextFile; LApplyAll true; LSaveAll (fun _ => good)]) as [[s' f']| |] eqn:E2; [|destruct R..].
  apply pair_equal_spec in R as [R R3]. apply pair_equal_spec in R as [R1 R2]. exists s', f'. repeat (split; [first [reflexivity|assumption]|]).
  destruct (ml_info s1) as [j|] eqn:J; [|destruct I]. apply pair_equal_spec in I as [M D]. intros url N. apply (C64_only_the_destination_is_written _ _ _ j _ _ J E2). unfold within. rewrite M, D. exact N.
Qed.
Print Assumptions C64_each_file_has_its_own_place_refuted.

(** The same document meets the hypotheses of C18: other lines before the files, and an empty side. *)
Example C18_example : doc_ok dir_doc /\ Forall rewritable (ud_files dir_doc) /\ Forall reusable (ud_files dir_doc) /\ Exists (fun p => up_before p <> []) (ud_files dir_doc) /\
  Exists (fun p => Exists (fun h => src_count (uh_segs h) = 0) (up_hunks p)) (ud_files dir_doc).
Proof.
  assert (T : forall s, terminated (nl s)) by (intros s; exists (lit s); reflexivity).
  split; [exact dir_doc_ok|]. split; [|split; [|split]].
  - repeat apply Forall_cons; try apply Forall_nil; (split; [split; discriminate|]); repeat apply Forall_cons; try apply Forall_nil; repeat apply Forall_cons; try apply Forall_nil; (split; cbn [src_lines dst_lines]; repeat apply Forall_cons; try apply Forall_nil; apply T).
  - repeat apply Forall_cons; try apply Forall_nil; (split; [split; vm_compute; discriminate|]); repeat apply Forall_cons; try apply Forall_nil; cbn; lia.
  - apply Exists_cons_hd. discriminate.
  - apply Exists_cons_tl, Exists_cons_hd, Exists_cons_hd. reflexivity.
Qed.
