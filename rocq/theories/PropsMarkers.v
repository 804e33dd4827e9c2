(** C09: which inline markers are paired. *)
From Coq Require Import String ZifyBool ZifyNat ZifyN.
From Verif Require Import Base Lev Diff SpecEdit SpecInline SpecMarkers PLevTable PLevWalk PLev PropsLev.

Section Walk.
Context {A : Type} (eqb : A -> A -> bool) (eqb_ok : forall x y, eqb x y = true <-> x = y).
Variables (a b : list A) (p : seqpair).
Hypothesis Hp : presents eqb a b p.
Notation pd := (pd eqb a b p).
Notation X := (length a).
Notation Y := (length b).
Variable t : table.
Hypothesis Hf : filled eqb a b p t.

(** Each list on its own: paired beyond the position, or waiting for its Start; or done, at position 0. *)
Definition sound (x : nat) (ms : list marker) (len : nat) : Prop := half x ms len \/ (x = 0 /\ paired ms len).

Lemma sound_step x ms len v cur : 1 <= x <= len -> v <= cur -> sound x ms len ->
  sound (x - 1) (mark ms v cur x) len /\
  (v < cur -> x - 1 = 0 -> sound (x - 1) (mk_marker MStart 0 :: mark ms v cur x) len).
Proof.
  intros Hx Hv [H|[-> _]]; [|lia]. destruct (Nat.eq_dec v cur) as [->|Hne].
  - destruct (half_mark_keep x ms len H Hx cur) as [K1 K2]. split; [|lia].
    left. apply not_open_half; [lia|assumption|assumption].
  - destruct (half_mark_end x ms len H Hx v cur) as [K1 (o & r & E)]; [lia|]. split; [left; exact K1|].
    intros _ E0. right. split; [exact E0|]. rewrite E in *. rewrite E0 in K1. cbn in K1. unfold paired. cbn.
    repeat split; try lia. apply K1.
Qed.

Lemma walk_sound fuel : forall x y m1 m2 x' y' m1' m2',
  x <= X -> y <= Y -> sound x m1 X -> sound y m2 Y ->
  walk fuel (sp_replace p) t x y m1 m2 = Ok (x', y', m1', m2') ->
  x' <= X /\ y' <= Y /\ sound x' m1' X /\ sound y' m2' Y.
Proof.
  induction fuel as [|fuel IH]; intros x y m1 m2 x' y' m1' m2' Hx Hy S1 S2 E; [discriminate|]. cbn [walk] in E.
  destruct (Nat.ltb_spec 0 x) as [Hx0|Hx0]; [destruct (Nat.ltb_spec 0 y) as [Hy0|Hy0]|]; cbn [andb] in E.
  2-3: injection E as <- <- <- <-; auto.
  rewrite !(cell_get eqb a b p t Hf) in E by lia. cbn [bind] in E.
  destruct (route_facts eqb eqb_ok a b p x y) as (u & v & _ & _ & Hr); [lia|lia|].
  destruct (choose_route _ _ _ _ _).
  - destruct (sound_step y m2 Y (pd x (y - 1)) (pd x y)) as [K1 K2]; [lia|lia|exact S2|].
    eapply (IH x (y - 1)); [| | | |exact E]; try lia; [exact S1|].
    destruct (Nat.eqb_spec (y - 1) 0) as [E0|E0]; [|exact K1]. apply K2; lia.
  - destruct (sound_step y m2 Y (pd (x - 1) (y - 1)) (pd x y)) as [K1 _]; [lia|lia|exact S2|].
    destruct (sound_step x m1 X (pd (x - 1) (y - 1)) (pd x y)) as [K2 _]; [lia|lia|exact S1|].
    eapply (IH (x - 1) (y - 1)); [| | | |exact E]; try lia; assumption.
  - destruct (sound_step x m1 X (pd (x - 1) y) (pd x y)) as [K1 K2]; [lia|lia|exact S1|].
    eapply (IH (x - 1) y); [| | | |exact E]; try lia; [|exact S2].
    destruct (Nat.eqb_spec (x - 1) 0) as [E0|E0]; [|exact K1]. apply K2; lia.
Qed.

Lemma sound_finish x ms len : x <= len -> sound x ms len ->
  nearly_paired (if Nat.eqb x 0 then ms else mk_marker MStart 0 :: mk_marker MEnd x :: ms) len.
Proof.
  intros Hx H. destruct (Nat.eqb_spec x 0) as [->|E0].
  - destruct H as [H|[_ H]]; [|apply np_paired; exact H].
    destruct ms as [|[[] o] ms]; cbn in H.
    + apply np_paired. exact I.
    + apply np_paired. eapply (paired_weaken 1); [lia|exact H].
    + eapply np_no_start; [reflexivity|lia|apply H].
  - destruct H as [H|[H _]]; [|contradiction].
    destruct ms as [|[[] o] ms]; cbn in H.
    + apply np_paired. unfold paired. cbn. lia.
    + apply np_paired. unfold paired. cbn. repeat split; try lia. exact H.
    + eapply np_two_ends; [reflexivity|lia|lia|apply H].
Qed.

Lemma create_markers_nearly m1 m2 : create_markers t p [] [] = Ok (m1, m2) -> nearly_paired m1 X /\ nearly_paired m2 Y.
Proof.
  unfold create_markers. destruct (proj1 Hf) as (Hw & Hh & _). rewrite Hw, Hh.
  replace (N.to_nat (N.of_nat (length a + 1)) - 1) with X by lia.
  replace (N.to_nat (N.of_nat (length b + 1)) - 1) with Y by lia.
  rewrite (cell_get eqb a b p t Hf) by lia. cbn [bind].
  destruct (sp_fine p (pd X Y)); cbn [negb].
  - destruct (walk _ _ _ _ _ _ _) as [[[[x y] n1] n2]| |] eqn:E; try discriminate. cbn [bind].
    intros Em; injection Em as <- <-.
    apply walk_sound in E as (Lx & Ly & S1 & S2); [|lia|lia|left; exact I|left; exact I].
    split; apply sound_finish; assumption.
  - intros Em; injection Em as <- <-.
    split; [destruct (Nat.eq_dec X 0) as [E|E]|destruct (Nat.eq_dec Y 0) as [E|E]].
    all: try (rewrite E; apply np_empty; reflexivity). all: apply np_paired; unfold paired; cbn; lia.
Qed.
End Walk.

Lemma inline_line_nearly t s d t' s' d' : (area (ds_string s) (ds_string d) < 4294967296)%N ->
  ds_markers s = [] -> ds_markers d = [] -> inline_line t s d = Ok (t', s', d') ->
  nearly_paired (ds_markers s') (length (ds_string s')) /\ nearly_paired (ds_markers d') (length (ds_string d')).
Proof.
  intros Hw Ms Md E. destruct (N.le_gt_cases (area (ds_string s) (ds_string d)) limit) as [Hle|Hgt].
  2: { rewrite inline_line_rejected in E by (split; assumption). injection E as _ <- <-. rewrite Ms, Md.
       split; apply np_paired; exact I. }
  destruct s as [a ca ha ms], d as [b cb hb md]; cbn [ds_string ds_markers] in *. subst ms md.
  unfold inline_line in E; cbn [ds_string ds_markers] in E. set (p := string_pair a b) in *.
  destruct (create_table_ok chr_eqb a b p t (string_pair_presents a b) Hle) as (t1 & Et & Hf). rewrite Et in E. cbn [bind] in E.
  destruct (Nat.eqb _ 0).
  - injection E as _ <- <-. cbn. split; apply np_paired; exact I.
  - destruct (create_markers t1 p [] []) as [[m1 m2]| |] eqn:Em; try discriminate. cbn [bind] in E. injection E as _ <- <-.
    cbn [ds_set_markers ds_markers ds_string]. eapply create_markers_nearly; [exact chr_eqb_ok|exact Hf|exact Em].
Qed.

Lemma inline_lines_nearly : forall sl dl t sl' dl',
  (forall s, In s sl -> ds_markers s = []) -> (forall d, In d dl -> ds_markers d = []) ->
  (forall i s d, nth_error sl i = Some s -> nth_error dl i = Some d -> no_wrap s d) ->
  length sl = length dl -> inline_lines t sl dl = Ok (sl', dl') ->
  forall s, In s (sl' ++ dl') -> nearly_paired (ds_markers s) (length (ds_string s)).
Proof.
  induction sl as [|s sl IH]; intros [|d dl] t sl' dl' Hs Hd Hok Hlen E; cbn in Hlen; try lia; cbn [inline_lines] in E.
  - injection E as <- <-. intros s [].
  - destruct (inline_line t s d) as [[[t1 s1] d1]| |] eqn:E1; try discriminate. cbn [bind] in E.
    destruct (inline_lines t1 sl dl) as [[sl1 dl1]| |] eqn:E2; try discriminate. cbn [bind] in E. injection E as <- <-.
    destruct (inline_line_nearly t s d t1 s1 d1) as [N1 N2]; [apply (Hok 0); reflexivity|apply Hs; left; reflexivity|apply Hd; left; reflexivity|exact E1|].
    assert (forall s0, In s0 (sl1 ++ dl1) -> nearly_paired (ds_markers s0) (length (ds_string s0))) as H.
    { eapply (IH dl t1); [intros; apply Hs; right; assumption|intros; apply Hd; right; assumption| |lia|exact E2].
      intros i u v A B. apply (Hok (S i)); assumption. }
    intros s0 Hin. apply in_app_iff in Hin as [[<-|Hin]|[<-|Hin]]; auto; apply H, in_app_iff; auto.
Qed.

(** C09, what is true: on every line of every difference all ranges are Start/End pairs but for the first one, and that one
    too unless it begins at the very beginning of the line. *)
Theorem C09_pairs_but_for_the_first_range_partial :
  forall d d',
  (forall s, In s (d_slines d) -> ds_markers s = []) ->
  (forall s, In s (d_dlines d) -> ds_markers s = []) ->
  (forall i s e, nth_error (d_slines d) i = Some s -> nth_error (d_dlines d) i = Some e -> no_wrap s e) ->
  determine_inline d = Ok d' ->
  forall s, In s (d_slines d' ++ d_dlines d') ->
    nearly_paired (ds_markers s) (length (ds_string s)) /\
    (ds_string s <> [] -> changed (ds_markers s) 0 = false -> paired (ds_markers s) (length (ds_string s))).
Proof.
  intros d d' Hs Hd Hok E s Hin.
  assert (nearly_paired (ds_markers s) (length (ds_string s))) as Hn.
  { unfold determine_inline in E.
    destruct (negb (dtype_eqb (d_type d) Change)).
    { injection E as <-. apply in_app_iff in Hin as [Hin|Hin]; [rewrite (Hs _ Hin)|rewrite (Hd _ Hin)]; apply np_paired; exact I. }
    destruct (Nat.eqb_spec (length (d_slines d)) (length (d_dlines d))) as [El|El]; cbn [negb] in E.
    2: { injection E as <-. apply in_app_iff in Hin as [Hin|Hin]; [rewrite (Hs _ Hin)|rewrite (Hd _ Hin)]; apply np_paired; exact I. }
    destruct (inline_lines new_table (d_slines d) (d_dlines d)) as [[sl dl]| |] eqn:E1; try discriminate. cbn [bind] in E.
    injection E as <-. cbn [set_lines d_slines d_dlines] in Hin. exact (inline_lines_nearly _ _ _ _ _ Hs Hd Hok El E1 s Hin). }
  split; [exact Hn|]. intros Hne Hc. destruct Hn as [H|e r E0 He Hr|x e r E0 Hx He Hr|E0 _].
  - exact H.
  - rewrite E0 in Hc. rewrite changed_cons_high in Hc by (cbn; lia). discriminate.
  - rewrite E0 in Hc. rewrite changed_cons_low, changed_cons_high in Hc by (cbn; lia). discriminate.
  - exfalso. clear - E0 Hne. apply Hne. destruct (ds_string s); [reflexivity|discriminate E0].
Qed.
Print Assumptions C09_pairs_but_for_the_first_range_partial.
(** All three forms occur. *)
Definition C09_lines (a b : string) : difference :=
  add_destination_line (lit b) (add_source_line (lit a) (new_diff 1 1 Change)).
Example C09_example :
  let markers d := match determine_inline d with Ok d' => Some (map ds_markers (d_slines d' ++ d_dlines d')) | _ => None end in
  markers (C09_lines "the fat cat" "the cat sat") <> None /\
  markers (C09_lines "abc" "xbc") = Some [[mk_marker MEnd 1]; [mk_marker MEnd 1]] /\
  markers (C09_lines "abcdef" "xcdef") = Some [[mk_marker MStart 0; mk_marker MEnd 1; mk_marker MEnd 2]; [mk_marker MEnd 1]].
Proof. vm_compute. repeat split; try reflexivity. discriminate. Qed.
