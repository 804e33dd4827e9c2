(** Properties C01-C04: splitting texts, escaping paths, cutting paths. *)
From Coq Require Import String.
From Verif Require Import Base QtStr Diff Regex Patterns Parser Paths SpecText SpecPatch SpecParse SpecHistory PHistory PParse PFileHeads.
Local Open Scope nat_scope.

(** * C01 *)
Lemma index_of_line t s : ~ In NL t -> index_of NL (t ++ NL :: s) = Some (length t).
Proof.
  induction t as [|x t IH]; cbn [app index_of]; intros N; [now rewrite N.eqb_refl|].
  destruct (N.eqb_spec NL x) as [<-|]; [exfalso; apply N; left; reflexivity|].
  rewrite IH; [reflexivity|]. intros I; apply N; right; exact I.
Qed.
Lemma index_of_absent t : ~ In NL t -> index_of NL t = None.
Proof.
  induction t as [|x t IH]; cbn [index_of]; intros N; [reflexivity|].
  destruct (N.eqb_spec NL x) as [<-|]; [exfalso; apply N; left; reflexivity|].
  rewrite IH; [reflexivity|]. intros I; apply N; right; exact I.
Qed.
Lemma split_loop_line fuel t s : ~ In NL t -> split_loop (S fuel) (t ++ NL :: s) = (t ++ [NL]) :: split_loop fuel s.
Proof.
  intros N. cbn [split_loop]. rewrite index_of_line by assumption. unfold mid. f_equal.
  - change (NL :: s) with ([NL] ++ s). rewrite app_assoc. cbn [skipn].
    replace (length t + 1) with (length (t ++ [NL])) by (rewrite app_length; reflexivity).
    rewrite firstn_app, firstn_all, Nat.sub_diag. cbn. now rewrite app_nil_r.
  - f_equal. change (NL :: s) with ([NL] ++ s). rewrite app_assoc.
    replace (length t + 1) with (length (t ++ [NL])) by (rewrite app_length; reflexivity).
    rewrite skipn_app, skipn_all, Nat.sub_diag. reflexivity.
Qed.
Lemma split_loop_last fuel t : ~ In NL t -> split_loop fuel t = match t with [] => [] | _ => [t] end.
Proof.
  intros N. destruct fuel; cbn [split_loop]; rewrite index_of_absent by assumption; destruct t; reflexivity.
Qed.
Lemma first_newline (s : str) : ~ In NL s \/ exists t r, s = t ++ NL :: r /\ ~ In NL t.
Proof.
  induction s as [|x s IH]; [left; auto|]. destruct (N.eq_dec x NL) as [->|NE].
  - right. exists [], s. auto.
  - destruct IH as [N|(t & r & -> & N)].
    + left. intros [E|I]; auto.
    + right. exists (x :: t), r. split; [reflexivity|]. intros [E|I]; auto.
Qed.
Lemma split_ind (P : str -> list str -> Prop) :
  (forall s, ~ In NL s -> P s (match s with [] => [] | _ => [s] end)) ->
  (forall t r ls, ~ In NL t -> P r ls -> P (t ++ NL :: r) ((t ++ [NL]) :: ls)) ->
  forall s fuel, length s <= fuel -> P s (split_loop fuel s).
Proof.
  intros H0 H1 s fuel. revert s. induction fuel as [|fuel IH]; intros s L.
  - destruct s; [|cbn in L; lia]. rewrite split_loop_last by auto. apply H0; auto.
  - destruct (first_newline s) as [N|(t & r & -> & N)].
    + rewrite split_loop_last by assumption. now apply H0.
    + rewrite split_loop_line by assumption. apply H1; [exact N|]. apply IH.
      rewrite app_length in L. cbn in L. lia.
Qed.
Lemma in_split {A} (l : A) ls : In l ls -> exists pre post, ls = pre ++ l :: post.
Proof. apply in_split. Qed.
Theorem C01_split_lossless :
  forall s ls, split_lines s = ls <-> lines_of_text s ls.
Proof.
  assert (F : forall s, lines_of_text s (split_lines s)).
  { intros s. unfold split_lines. apply split_ind; [| |lia].
    - intros t N. destruct t as [|x t]; split; auto.
      + intros l pre post [].
      + intros pre l post E. destruct pre; discriminate.
      + cbn. now rewrite app_nil_r.
      + constructor; [discriminate|constructor].
      + intros l pre post [<-|[]] E. exfalso. apply N. rewrite E. apply in_or_app. right. left. reflexivity.
      + intros pre l post E NE. destruct pre as [|y pre]; [injection E as _ E; now destruct NE|].
        injection E as _ E. destruct pre; discriminate.
    - intros t r ls N [A B C D]. split.
      + cbn. rewrite A, <- app_assoc. reflexivity.
      + constructor; [destruct t; discriminate|exact B].
      + intros l pre post [<-|I] E; [|eauto].
        destruct post as [|y post] using rev_ind; [reflexivity|]. clear IHpost. exfalso.
        change (NL :: post ++ [y]) with ((NL :: post) ++ [y]) in E. rewrite app_assoc in E.
        apply app_inj_tail in E as [E _]. apply N. rewrite E. apply in_or_app. right. left. reflexivity.
      + intros pre l post E NE. destruct pre as [|x pre].
        * injection E as <- <-. eauto.
        * injection E as _ E. eauto. }
  intros s ls. split; [intros <-; apply F|].
  intros [A B C D]. subst s.
  assert (X : forall fuel, length (concat ls) <= fuel -> split_loop fuel (concat ls) = ls); [|now apply X].
  induction ls as [|l ls IH]; intros fuel L.
  - cbn [concat]. now rewrite split_loop_last by auto.
  - inversion_clear B as [|? ? NE B']. destruct ls as [|l2 ls].
    + cbn [concat] in *. rewrite app_nil_r in *. destruct (first_newline l) as [N|(t & r & -> & N)].
      * rewrite split_loop_last by assumption. destruct l; [congruence|reflexivity].
      * assert (r = []) by (eapply C; [left; reflexivity|reflexivity]). subst r.
        destruct fuel as [|fuel]; [rewrite app_length in L; cbn in L; lia|].
        rewrite split_loop_line by assumption. now rewrite split_loop_last by auto.
    + destruct (D [] l (l2 :: ls) eq_refl) as (t & ->); [discriminate|].
      assert (N : ~ In NL t).
      { intros I. apply in_split in I as (u & v & ->). 
        assert (E : v ++ [NL] = []); [|destruct v; discriminate].
        eapply (C _ u); [left; reflexivity|]. now rewrite <- app_assoc. }
      change (concat ((t ++ [NL]) :: l2 :: ls)) with ((t ++ [NL]) ++ concat (l2 :: ls)) in *.
      rewrite <- app_assoc in *. cbn [app] in *.
      destruct fuel as [|fuel]; [rewrite app_length in L; cbn in L; lia|].
      rewrite split_loop_line by assumption. f_equal. apply IH.
      * exact B'.
      * intros l pre post I. apply C. right. exact I.
      * intros pre l post E. apply (D ((t ++ [NL]) :: pre)). rewrite E. reflexivity.
      * rewrite app_length in L. cbn [length] in L. lia.
Qed.
Print Assumptions C01_split_lossless.
Example C01_example :
  split_lines [97; 10; 10; 98; 99]%N = [[97; 10]; [10]; [98; 99]]%N.
Proof. reflexivity. Qed.

(** * C02 *)
Definition double_bsl (c : chr) : str := if N.eqb c BSL then [BSL; BSL] else [c].
Definition escape_chr (c : chr) : str := if N.eqb c BSL then [BSL; BSL] else if N.eqb c QUOTE then [BSL; QUOTE] else [c].
Lemma starts_one (b c : chr) s : starts_with [b] (c :: s) = N.eqb b c.
Proof. cbn. apply andb_true_r. Qed.
Lemma replace_one b after s : replace [b] after s = concat (map (fun c => if N.eqb b c then after else [c]) s).
Proof.
  unfold replace. induction s as [|c s IH]; [reflexivity|]. cbn [replace_aux map concat].
  rewrite starts_one. destruct (N.eqb b c); cbn [length Nat.sub]; rewrite IH; reflexivity.
Qed.
Lemma escaped_body s : replace [QUOTE] [BSL; QUOTE] (replace [BSL] [BSL; BSL] s) = concat (map escape_chr s).
Proof.
  rewrite !replace_one. induction s as [|c s IH]; [reflexivity|]. cbn [map concat]. rewrite map_app, concat_app.
  f_equal; [|exact IH]. unfold escape_chr. destruct (N.eqb_spec BSL c) as [<-|N]; [reflexivity|].
  replace (N.eqb c BSL) with false by (symmetry; apply N.eqb_neq; congruence).
  cbn [map concat]. rewrite app_nil_r. rewrite (N.eqb_sym c QUOTE). destruct (N.eqb QUOTE c) eqn:E; [|reflexivity].
  reflexivity.
Qed.
Lemma replace_two_other b1 b2 after c s : c <> b1 -> replace [b1; b2] after (c :: s) = c :: replace [b1; b2] after s.
Proof.
  intros N. unfold replace. cbn [replace_aux starts_with].
  destruct (N.eqb_spec b1 c); [congruence|]. reflexivity.
Qed.
Lemma replace_two_hit b1 b2 after s : replace [b1; b2] after (b1 :: b2 :: s) = after ++ replace [b1; b2] after s.
Proof.
  unfold replace. cbn [replace_aux starts_with length Nat.sub]. rewrite !N.eqb_refl. reflexivity.
Qed.
Lemma replace_two_miss b1 b2 after c s : c <> b2 -> replace [b1; b2] after (b1 :: c :: s) = b1 :: replace [b1; b2] after (c :: s).
Proof.
  intros N. unfold replace at 1. cbn [replace_aux starts_with]. rewrite N.eqb_refl.
  destruct (N.eqb_spec b2 c); [congruence|]. reflexivity.
Qed.
Lemma replace_two_end b1 b2 after : replace [b1; b2] after [b1] = [b1].
Proof. unfold replace. cbn [replace_aux starts_with]. rewrite N.eqb_refl. reflexivity. Qed.
Lemma unquote s : replace [BSL; QUOTE] [QUOTE] (concat (map escape_chr s)) = concat (map double_bsl s).
Proof.
  induction s as [|c s IH]; [reflexivity|]. cbn [map concat]. unfold escape_chr at 1, double_bsl at 1.
  destruct (N.eqb_spec c BSL) as [->|N1].
  - cbn [app]. rewrite replace_two_miss by discriminate. f_equal.
    destruct s as [|c2 s]; [cbn; reflexivity|]. cbn [map concat] in *. unfold escape_chr at 1 in IH. unfold escape_chr at 1.
    destruct (N.eqb_spec c2 BSL) as [->|N2].
    + cbn [app] in *. rewrite replace_two_miss by discriminate. now rewrite IH.
    + destruct (N.eqb_spec c2 QUOTE) as [->|N3].
      * cbn [app] in *. rewrite replace_two_miss by discriminate. now rewrite IH.
      * cbn [app] in *. rewrite replace_two_miss by assumption. now rewrite IH.
  - destruct (N.eqb_spec c QUOTE) as [->|N3].
    + cbn [app]. rewrite replace_two_hit, IH. reflexivity.
    + cbn [app]. rewrite replace_two_other by assumption. now rewrite IH.
Qed.
Lemma undouble s : replace [BSL; BSL] [BSL] (concat (map double_bsl s)) = s.
Proof.
  induction s as [|c s IH]; [reflexivity|]. cbn [map concat]. unfold double_bsl at 1.
  destruct (N.eqb_spec c BSL) as [->|N].
  - cbn [app]. rewrite replace_two_hit, IH. reflexivity.
  - cbn [app]. rewrite replace_two_other by assumption. now rewrite IH.
Qed.
Lemma ends_app c s : ends_with_chr c (s ++ [c]) = true.
Proof. induction s as [|x s IH]; cbn; [apply N.eqb_refl|]. destruct (s ++ [c]) eqn:E; [destruct s; discriminate|exact IH]. Qed.
Theorem C02_escaping_round_trips : forall path, unescape_path (escape_path path) = path.
Proof.
  intros p. unfold escape_path. rewrite escaped_body. set (e := concat (map escape_chr p)).
  assert (U : replace [BSL; BSL] [BSL] (replace [BSL; QUOTE] [QUOTE] e) = p) by (unfold e; now rewrite unquote, undouble).
  unfold unescape_path. destruct (contains_chr SP e).
  - rewrite starts_one, N.eqb_refl. cbn [andb]. change (QUOTE :: e ++ [QUOTE]) with ((QUOTE :: e) ++ [QUOTE]).
    rewrite ends_app. unfold mid. cbn [app skipn length]. rewrite app_length. cbn [length].
    replace (S (length e + 1) - 2) with (length e) by lia.
    rewrite firstn_app, firstn_all, Nat.sub_diag. cbn [firstn]. now rewrite app_nil_r, U.
  - assert (S : starts_with [QUOTE] e = false).
    { unfold e. destruct p as [|c p]; [reflexivity|]. cbn [map concat]. unfold escape_chr at 1.
      destruct (N.eqb_spec c BSL); [reflexivity|]. destruct (N.eqb_spec c QUOTE); [reflexivity|].
      cbn [app]. rewrite starts_one. destruct (N.eqb_spec QUOTE c); congruence. }
    rewrite S. exact U.
Qed.
Print Assumptions C02_escaping_round_trips.
(** How a path is written: a backslash before each backslash and each quote; in quotes exactly if there is a blank in it. *)
Inductive written_as : str -> str -> Prop :=
| wr_none : written_as [] []
| wr_special c p b : c = 92%N \/ c = 34%N -> written_as p b -> written_as (c :: p) (92%N :: c :: b)
| wr_plain c p b : c <> 92%N -> c <> 34%N -> written_as p b -> written_as (c :: p) (c :: b).
Lemma written_body p : written_as p (concat (map escape_chr p)).
Proof.
  induction p as [|c p IH]; [constructor|]. cbn [map concat]. unfold escape_chr at 1. destruct (N.eqb_spec c BSL) as [->|N1].
  - apply wr_special; [left; reflexivity|exact IH].
  - destruct (N.eqb_spec c QUOTE) as [->|N2]; [apply wr_special; [right; reflexivity|exact IH]|]. apply wr_plain; assumption.
Qed.
Lemma written_blank p b : written_as p b -> contains_chr SP b = true <-> In 32%N p.
Proof.
  induction 1 as [|c p b C _ IH|c p b C1 C2 _ IH]; cbn [contains_chr In]; [split; [discriminate|tauto]|destruct C as [-> | ->]; cbn [N.eqb Pos.eqb orb]|].
  - rewrite IH. split; [auto|intros [X|X]; [discriminate X|exact X]].
  - rewrite IH. split; [auto|intros [X|X]; [discriminate X|exact X]].
  - rewrite Bool.orb_true_iff, IH, N.eqb_eq. split; intros [X|X]; auto.
Qed.
Theorem C02_escaped_form : forall path, exists body, written_as path body /\
  (In 32%N path -> escape_path path = [34%N] ++ body ++ [34%N]) /\ (~ In 32%N path -> escape_path path = body).
Proof.
  intros p. exists (concat (map escape_chr p)). pose proof (written_body p) as M. split; [exact M|].
  pose proof (written_blank _ _ M) as B. unfold escape_path. rewrite escaped_body. destruct (contains_chr SP (concat (map escape_chr p))).
  - split; [reflexivity|]. intros X. destruct (X (proj1 B eq_refl)).
  - split; [|reflexivity]. intros X. apply B in X. discriminate X.
Qed.
Print Assumptions C02_escaped_form.
Example C02_example :
  escape_path (lit "a ""\b\\""") = lit """a \""\\b\\\\\""""" /\
  unescape_path (lit """a \""\\b\\\\\""""") = lit "a ""\b\\""".
Proof. split; reflexivity. Qed.

(** * C03 *)
Theorem C03_constructor_cuts_paths :
  forall s d, dm_source (new_model s d) = s /\ dm_destination (new_model s d) = d /\
  cut_at_slash s (dm_spath (new_model s d)) (dm_sfile (new_model s d)) /\
  cut_at_slash d (dm_dpath (new_model s d)) (dm_dfile (new_model s d)).
Proof. intros s d. destruct (new_model_named s d _ eq_refl) as (A & B & C & D & _). auto. Qed.
Print Assumptions C03_constructor_cuts_paths.
(** Renaming. *)
Inductive rename := RSource (p : str) | RDestination (p : str).
Definition renamed (m : dmodel) (r : rename) : dmodel :=
  match r with RSource p => set_source_file p m | RDestination p => set_destination_file p m end.
Definition last_source (s : str) (rs : list rename) : str :=
  fold_left (fun s r => match r with RSource p => p | RDestination _ => s end) rs s.
Definition last_destination (s : str) (rs : list rename) : str :=
  fold_left (fun s r => match r with RSource _ => s | RDestination p => p end) rs s.
Lemma set_source_cut p m : dm_source (set_source_file p m) = p /\
  (In SLASH p -> cut_at_slash p (dm_spath (set_source_file p m)) (dm_sfile (set_source_file p m))) /\
  (~ In SLASH p -> dm_spath (set_source_file p m) = dm_spath m /\ dm_sfile (set_source_file p m) = p) /\
  dm_destination (set_source_file p m) = dm_destination m /\ dm_dpath (set_source_file p m) = dm_dpath m /\
  dm_dfile (set_source_file p m) = dm_dfile m.
Proof.
  unfold set_source_file, split_source. cbn [with_names dm_source].
  destruct (last_index_of SLASH p) as [i|] eqn:E; cbn.
  - apply last_index_some in E as (u & v & -> & NV & ->). repeat split; try reflexivity.
    all: try (now apply cut_mid).
    all: exfalso; match goal with N : ~ In _ _ |- _ => apply N end; apply in_or_app; right; left; reflexivity.
  - apply last_index_none in E. repeat split; try reflexivity; contradiction.
Qed.
Lemma set_destination_cut p m : dm_destination (set_destination_file p m) = p /\
  (In SLASH p -> cut_at_slash p (dm_dpath (set_destination_file p m)) (dm_dfile (set_destination_file p m))) /\
  (~ In SLASH p -> dm_dpath (set_destination_file p m) = dm_dpath m /\ dm_dfile (set_destination_file p m) = p) /\
  dm_source (set_destination_file p m) = dm_source m /\ dm_spath (set_destination_file p m) = dm_spath m /\
  dm_sfile (set_destination_file p m) = dm_sfile m.
Proof.
  unfold set_destination_file, split_destination. cbn [with_names dm_destination].
  destruct (last_index_of SLASH p) as [i|] eqn:E; cbn.
  - apply last_index_some in E as (u & v & -> & NV & ->). repeat split; try reflexivity.
    all: try (now apply cut_mid).
    all: exfalso; match goal with N : ~ In _ _ |- _ => apply N end; apply in_or_app; right; left; reflexivity.
  - apply last_index_none in E. repeat split; try reflexivity; contradiction.
Qed.
Theorem C03_renaming_cuts_paths :
  forall s d rs, let m := fold_left renamed rs (new_model s d) in
  dm_source m = last_source s rs /\ dm_destination m = last_destination d rs /\
  (In SLASH (last_source s rs) -> cut_at_slash (last_source s rs) (dm_spath m) (dm_sfile m)) /\
  (In SLASH (last_destination d rs) -> cut_at_slash (last_destination d rs) (dm_dpath m) (dm_dfile m)).
Proof.
  intros s d rs. cbv zeta.
  assert (G : forall m s d, dm_source m = s -> dm_destination m = d ->
    (In SLASH s -> cut_at_slash s (dm_spath m) (dm_sfile m)) -> (In SLASH d -> cut_at_slash d (dm_dpath m) (dm_dfile m)) ->
    dm_source (fold_left renamed rs m) = last_source s rs /\ dm_destination (fold_left renamed rs m) = last_destination d rs /\
    (In SLASH (last_source s rs) -> cut_at_slash (last_source s rs) (dm_spath (fold_left renamed rs m)) (dm_sfile (fold_left renamed rs m))) /\
    (In SLASH (last_destination d rs) -> cut_at_slash (last_destination d rs) (dm_dpath (fold_left renamed rs m)) (dm_dfile (fold_left renamed rs m)))).
  { clear. induction rs as [|[p|p] rs IH]; intros m s d E1 E2 C1 C2; cbn [fold_left last_source last_destination renamed]; [auto| |].
    - destruct (set_source_cut p m) as (A & B & _ & D & F & G). apply IH; auto.
      + now rewrite D.
      + now rewrite F, G.
    - destruct (set_destination_cut p m) as (A & B & _ & D & F & G). apply IH; auto.
      + now rewrite D.
      + now rewrite F, G. }
  destruct (C03_constructor_cuts_paths s d) as (A & B & C & D). apply G; auto.
Qed.
Print Assumptions C03_renaming_cuts_paths.
(** The exception: the directory of the previous name stays. *)
Theorem C03_stale_directory :
  forall p m, ~ In SLASH p ->
  dm_spath (set_source_file p m) = dm_spath m /\ dm_sfile (set_source_file p m) = p /\
  dm_dpath (set_destination_file p m) = dm_dpath m /\ dm_dfile (set_destination_file p m) = p.
Proof.
  intros p m N. destruct (set_source_cut p m) as (_ & _ & A & _). destruct (set_destination_cut p m) as (_ & _ & B & _).
  destruct (A N), (B N). auto.
Qed.
Print Assumptions C03_stale_directory.
Example C03_example :
  let m := set_source_file (lit "z") (set_source_file (lit "a/b/c") (new_model (lit "x/y") (lit "w"))) in
  (dm_spath m, dm_sfile m, dm_dpath m, dm_dfile m) = (lit "a/b/", lit "z", [], lit "w").
Proof. reflexivity. Qed.

(** * C04 *)
Lemma index_of_slash t s : ~ In SLASH t -> index_of SLASH (t ++ SLASH :: s) = Some (length t).
Proof.
  induction t as [|x t IH]; cbn [app index_of]; intros N; [now rewrite N.eqb_refl|].
  destruct (N.eqb_spec SLASH x) as [<-|]; [exfalso; apply N; left; reflexivity|].
  rewrite IH; [reflexivity|]. intros I; apply N; right; exact I.
Qed.
Lemma index_of_no_slash t : ~ In SLASH t -> index_of SLASH t = None.
Proof.
  induction t as [|x t IH]; cbn [index_of]; intros N; [reflexivity|].
  destruct (N.eqb_spec SLASH x) as [<-|]; [exfalso; apply N; left; reflexivity|].
  rewrite IH; [reflexivity|]. intros I; apply N; right; exact I.
Qed.
Lemma lstrip_stays n u v : lstrip_loop (u ++ SLASH :: v) n (length u) = Some (length u).
Proof.
  induction n as [|n IH]; [reflexivity|]. cbn [lstrip_loop]. unfold index_from.
  rewrite skipn_app, skipn_all, Nat.sub_diag. cbn [skipn app index_of]. rewrite N.eqb_refl, Nat.add_0_r. exact IH.
Qed.
(** What is stripped, for every depth and path. *)
Theorem C04_what_depth_strips :
  forall p depth,
  match depth with
  | 0 => lstrip_separators p 0 = tl p
  | S _ => (~ In SLASH p -> lstrip_separators p depth = []) /\
           (forall c r, p = c ++ SLASH :: r -> ~ In SLASH c -> lstrip_separators p depth = r)
  end.
Proof.
  intros p [|n]; [destruct p; reflexivity|]. unfold lstrip_separators. cbn [lstrip_loop]. unfold index_from. cbn [skipn].
  split.
  - intros N. now rewrite index_of_no_slash.
  - intros c r -> N. rewrite index_of_slash by assumption. cbn [Nat.add]. rewrite lstrip_stays.
    change (SLASH :: r) with ([SLASH] ++ r). rewrite app_assoc.
    replace (length c + 1) with (length (c ++ [SLASH])) by (rewrite app_length; reflexivity).
    rewrite skipn_app, skipn_all, Nat.sub_diag. reflexivity.
Qed.
Print Assumptions C04_what_depth_strips.
Lemma depth_one p r : without_components 1 p r -> lstrip_separators p 1 = r.
Proof.
  inversion 1 as [|n c q r' N W]; subst. inversion W; subst. destruct (C04_what_depth_strips (c ++ SLASH :: r) 1) as [_ X]. exact (X c r eq_refl N).
Qed.
Theorem C04_depth_one_partial :
  forall m s d b, without_components 1 (dm_source m) s -> without_components 1 (dm_destination m) d ->
  forall m', set_depth_and_applied 1 b m = Ok m' -> dm_source m' = s /\ dm_destination m' = d.
Proof.
  intros m s d b W1 W2 m' H. unfold set_depth_and_applied in H.
  assert (E0 : dm_destination (set_source_file (lstrip_separators (dm_source m) 1) m) = dm_destination m)
    by apply set_source_cut.
  rewrite E0 in H. rewrite (depth_one _ _ W1), (depth_one _ _ W2) in H.
  unfold apply_all in H. destruct (apply_all_loop _ _ _ _); try discriminate. cbn [bind] in H. injection H as <-.
  unfold with_store, with_contents, with_applied. cbn.
  destruct (set_destination_cut d (set_source_file s m)) as (A & _ & _ & B & _).
  destruct (set_source_cut s m) as (C & _). rewrite A, B, C. auto.
Qed.
Print Assumptions C04_depth_one_partial.
Theorem C04_depth_strips_components_refuted :
  (forall p, p <> [] -> without_components 0 p p /\ lstrip_separators p 0 <> p) /\
  (exists p r, without_components 2 p r /\ lstrip_separators p 2 <> r).
Proof.
  split.
  - intros p N. split; [constructor|]. pose proof (C04_what_depth_strips p 0) as E. cbn beta iota in E. rewrite E.
    destruct p as [|x p]; [congruence|]. cbn [tl]. intros H. apply (f_equal (@length _)) in H. cbn in H. lia.
  - exists (lit "a/b/c"), (lit "c"). split.
    + apply (wc_one 1 (lit "a") (lit "b/c")); [cbn; intuition discriminate|].
      apply (wc_one 0 (lit "b") (lit "c")); [cbn; intuition discriminate|]. constructor.
    + vm_compute. discriminate.
Qed.
Print Assumptions C04_depth_strips_components_refuted.
Example C04_example :
  without_components 1 (lit "a/b/c") (lit "b/c") /\
  match set_depth_and_applied 1 false (new_model (lit "a/b/c") (lit "x/y")) with
  | Ok m => dm_source m = lit "b/c" /\ dm_destination m = lit "y" | _ => False end.
Proof.
  split; [apply (wc_one 0 (lit "a") (lit "b/c")); [cbn; intuition discriminate|constructor]|]. vm_compute. auto.
Qed.
