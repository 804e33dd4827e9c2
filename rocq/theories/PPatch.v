From Coq Require Import ZifyBool ZifyNat ZifyN String.
From Verif Require Import Base QtStr Lev Diff LinesChanged SpecEdit SpecInline SpecPatch PMarkLoop.
Local Open Scope Z_scope.

Lemma count_pos {A} (l : list A) : 0 <= count l. Proof. unfold count; lia. Qed.
Lemma count_cons {A} (x : A) l : count (x :: l) = 1 + count l. Proof. unfold count. cbn [length]. lia. Qed.

(** * Facts about descriptions *)
Lemma desc_cast s t S D ds s' t' : describes s t S D ds -> s = s' -> t = t' -> describes s' t' S D ds.
Proof. intros H -> ->. exact H. Qed.

Lemma desc_prefix s t X S D ds : describes (s + count X) (t + count X) S D ds -> describes s t (X ++ S) (X ++ D) ds.
Proof.
  intros H. inversion H as [s' t' same | s' t' same S' D' d ds' E1 E2 H']; subst.
  - constructor.
  - rewrite !(app_assoc X). constructor; rewrite ?count_app; try lia.
    eapply desc_cast; [exact H'| |]; rewrite ?count_app; lia.
Qed.

Lemma desc_app s t S1 D1 ds1 : describes s t S1 D1 ds1 -> forall S2 D2 ds2,
  describes (s + count S1) (t + count D1) S2 D2 ds2 -> describes s t (S1 ++ S2) (D1 ++ D2) (ds1 ++ ds2).
Proof.
  induction 1 as [s t same | s t same S D d ds E1 E2 H IH]; intros S2 D2 ds2 H2.
  - apply desc_prefix. exact H2.
  - rewrite <- !app_assoc. cbn [app]. constructor; try assumption. apply IH.
    eapply desc_cast; [exact H2| |]; rewrite !count_app, ?count_lines; lia.
Qed.

Lemma desc_drop s t S D d ds : d_applied d = false -> describes s t S D (d :: ds) -> describes s t S D ds.
Proof.
  intros Ha H. inversion H as [|s' t' same S' D' d' ds' E1 E2 H']; subst.
  unfold shown in *. rewrite Ha in *. apply desc_prefix. apply desc_prefix.
  eapply desc_cast; [exact H'| |]; rewrite ?count_lines; lia.
Qed.

Lemma desc_shift delta s t S D ds : describes s t S D ds -> describes s (t + delta) S D (map (moved delta) ds).
Proof.
  induction 1 as [s t same | s t same S D d ds E1 E2 H IH]; cbn [map]; [constructor|].
  change (lines_of (d_slines d)) with (lines_of (d_slines (moved delta d))).
  change (shown d) with (shown (moved delta d)) in *. constructor; cbn [moved set_track d_src d_track d_slines].
  - exact E1.
  - lia.
  - eapply desc_cast; [exact IH|reflexivity|lia].
Qed.

Lemma desc_track s t S D ds : describes s t S D ds -> forall d, In d ds -> t <= d_track d.
Proof.
  induction 1 as [s t same | s t same S D d ds E1 E2 H IH]; intros d' Hd; [destruct Hd|].
  destruct Hd as [<-|Hd].
  - pose proof (count_pos same). lia.
  - specialize (IH d' Hd). pose proof (count_pos same). pose proof (count_pos (shown d)). lia.
Qed.

Definition head_from (line : Z) (ds : list difference) : Prop :=
  match ds with [] => True | d :: _ => line <= d_track d end.
(** Cutting off common lines at the front. *)
Lemma app_prefix {A} (X Y Z W : list A) : X ++ Y = Z ++ W -> (length X <= length Z)%nat -> exists V, Z = X ++ V /\ Y = V ++ W.
Proof.
  revert Z; induction X as [|x X IH]; intros Z E H; [exists Z; auto|].
  destruct Z as [|z Z]; [cbn in H; lia|]. cbn in E. injection E as -> E. cbn in H.
  destruct (IH Z E) as (V & -> & ->); [lia|]. exists V. auto.
Qed.
Lemma desc_cut s t S X D ds : describes s t S (X ++ D) ds -> head_from (t + count X) ds ->
  exists S', S = X ++ S' /\ describes (s + count X) (t + count X) S' D ds.
Proof.
  intros H Hh. inversion H as [s' t' same E1 E2 E3 | s' t' same S' D' d ds' E1 E2 H' F1 F2 F3 F4]; subst.
  - exists D. split; [reflexivity|constructor].
  - cbn in Hh. destruct (app_prefix X D same (shown d ++ D')) as (V & -> & EV).
    { congruence. } { unfold count in *. lia. }
    subst D. rewrite <- app_assoc. eexists. split; [reflexivity|]. rewrite count_app in *.
    constructor; try lia. eapply desc_cast; [exact H'| |]; lia.
Qed.

(** * Differences before the edit *)
Lemma real_end d : d_applied d = true -> count (shown d) = count (d_dlines d).
Proof. unfold shown. intros ->. apply count_lines. Qed.
Lemma real_end' d : d_applied d = false -> count (shown d) = count (d_slines d).
Proof. unfold shown. intros ->. apply count_lines. Qed.
Lemma tend d : tracking_end d = d_track d + count (d_dlines d).
Proof. reflexivity. Qed.
Lemma send d : source_line_end d = d_src d + count (d_slines d).
Proof. reflexivity. Qed.

Definition starts_here (edit : Z) (rest : list difference) : Prop :=
  match rest with [] => True | d :: _ => starts_range edit d = true end.
Lemma last_cons {A} (x : A) l d : last (x :: l) d = last l x.
Proof.
  revert x d; induction l as [|y l IH]; intros x d; [reflexivity|].
  change (last (x :: y :: l) d) with (last (y :: l) d). rewrite !IH. reflexivity.
Qed.
Lemma before_ok R edit : forall ds s t S D1,
  describes s t S (D1 ++ R) ds -> edit = t + count D1 ->
  (forall d, In d ds -> d_applied d = false -> starts_range edit d = false -> d_track d + count (d_slines d) <= edit) ->
  let '(pre, rest) := until (starts_range edit) ds in
  ds = pre ++ rest /\ starts_here edit rest /\ Forall (fun d => starts_range edit d = false) pre /\
  exists A A' S2 D1', S = A ++ S2 /\ D1 = A' ++ D1' /\ describes s t A A' pre /\
    describes (s + count A) (t + count A') S2 (D1' ++ R) rest /\
    (forall d0, pre <> [] -> source_line_end (last pre d0) = s + count A /\ d_track (last pre d0) + count (shown (last pre d0)) = t + count A') /\
    (pre = [] -> A = [] /\ A' = []).
Proof.
  induction ds as [|d ds IH]; intros s t S D1 H Ee Hu.
  - cbn. split; [reflexivity|]. split; [exact I|]. split; [constructor|]. exists [], [], S, D1. rewrite !count_nil, !Z.add_0_r.
    split; [reflexivity|]. split; [reflexivity|]. split; [constructor|]. split; [exact H|]. split; [congruence|auto].
  - cbn [until]. destruct (starts_range edit d) eqn:Es.
    + split; [reflexivity|]. split; [exact Es|]. split; [constructor|]. exists [], [], S, D1. rewrite !count_nil, !Z.add_0_r.
      split; [reflexivity|]. split; [reflexivity|]. split; [constructor|]. split; [exact H|]. split; [congruence|auto].
    + inversion H as [|s' t' same S' D' d' ds' E1 E2 H' F1 F2 F3 F4]; subst s' t' d' ds' S.
      assert (d_track d + count (shown d) <= edit) as Hend.
      { destruct (d_applied d) eqn:Ea.
        - rewrite (real_end d Ea). unfold starts_range in Es. rewrite tend in Es. rewrite Ea in Es. lia.
        - rewrite (real_end' d Ea). apply Hu; auto. left. reflexivity. }
      destruct (app_prefix (same ++ shown d) D' D1 R) as (D1a & -> & ->).
      { rewrite <- app_assoc. congruence. }
      { rewrite app_length. unfold count in *. lia. }
      specialize (IH _ _ _ D1a H'). destruct (until (starts_range edit) ds) as [pre rest].
      destruct IH as (I1 & I2 & I2b & A & A' & S2 & D1' & J1 & J2 & J3 & J4 & J5 & J6).
      { rewrite !count_app in Ee. lia. }
      { intros d' Hd'. apply Hu. right. exact Hd'. }
      split; [cbn; congruence|]. split; [exact I2|]. split; [constructor; assumption|].
      exists (same ++ lines_of (d_slines d) ++ A), (same ++ shown d ++ A'), S2, D1'.
      split; [rewrite J1, <- !app_assoc; reflexivity|]. split; [rewrite J2, <- !app_assoc; reflexivity|].
      split; [constructor; assumption|].
      rewrite !count_app, count_lines. split.
      { eapply desc_cast; [exact J4| |]; lia. }
      split; [|congruence].
      intros d0 _. rewrite last_cons. destruct pre as [|p pre].
      * cbn [last]. destruct (J6 eq_refl) as [-> ->]. rewrite !count_nil. unfold source_line_end, slc. fold (count (d_slines d)). lia.
      * destruct (J5 d) as [K1 K2]; [congruence|]. lia.
Qed.

(** * Differences within the edit *)
Inductive covers : Z -> list str -> list difference -> list str -> list str -> Prop :=
| cov_nil cur O : covers cur O [] O []
| cov_in cur g O2 d its R over :
    d_applied d = true -> d_track d = cur + count g ->
    covers (cur + count g + count (d_dlines d)) O2 its R over ->
    covers cur (g ++ lines_of (d_dlines d) ++ O2) (d :: its) (g ++ lines_of (d_slines d) ++ R) over
| cov_over cur g O1 d over :
    d_applied d = true -> d_track d = cur + count g -> lines_of (d_dlines d) = O1 ++ over ->
    covers cur (g ++ O1) [d] (g ++ lines_of (d_slines d)) over.

Lemma covers_cons_inv cur O d its R over : covers cur O (d :: its) R over ->
  (exists g O2 R1, O = g ++ lines_of (d_dlines d) ++ O2 /\ R = g ++ lines_of (d_slines d) ++ R1 /\ d_track d = cur + count g /\
     covers (cur + count g + count (d_dlines d)) O2 its R1 over) \/
  (exists g O1, its = [] /\ O = g ++ O1 /\ R = g ++ lines_of (d_slines d) /\ d_track d = cur + count g /\
     lines_of (d_dlines d) = O1 ++ over).
Proof. intros H. inversion H; subst; [left; eauto 10|right; eauto 10]. Qed.

Lemma until_all {A} (f : A -> bool) l : (forall x, In x l -> f x = true) -> until f l = ([], l).
Proof. destruct l as [|x l]; [reflexivity|]. intros H. cbn. rewrite (H x) by (left; reflexivity). reflexivity. Qed.

Lemma within_ok D2 : forall rest s cur S2 O,
  describes s cur S2 (O ++ D2) rest ->
  let '(mid, post) := until (stops_range (cur + count O)) rest in
  rest = mid ++ post /\
  exists R over B B', S2 = R ++ B /\ D2 = over ++ B' /\
    describes (s + count R) (cur + count O + count over) B B' post /\
    covers cur O (filter d_applied mid) R over.
Proof.
  induction rest as [|d rest IH]; intros s cur S2 O H.
  - cbn. split; [reflexivity|]. exists O, [], D2, D2. inversion H; subst.
    split; [reflexivity|]. split; [reflexivity|]. split; constructor.
  - cbn [until]. destruct (stops_range (cur + count O) d) eqn:Es.
    + split; [reflexivity|]. destruct (desc_cut s cur S2 O D2 (d :: rest) H) as (S' & -> & H').
      { cbn. unfold stops_range in Es. lia. }
      exists O, [], S', D2. rewrite count_nil, Z.add_0_r. split; [reflexivity|]. split; [reflexivity|].
      split; [exact H'|constructor].
    + destruct (d_applied d) eqn:Ea.
      * inversion H as [|s' t' same S' D' d' ds' E1 E2 H' F1 F2 F3 F4]; subst s' t' d' ds' S2.
        unfold stops_range in Es. rewrite Ea in Es. cbn in Es.
        rewrite (real_end d Ea) in H'. match goal with F : _ ++ shown _ ++ D' = _ |- _ => rename F into FD end.
        unfold shown in FD. rewrite Ea in FD.
        destruct (app_prefix same (lines_of (d_dlines d) ++ D') O D2) as (O1 & -> & EO).
        { congruence. } { unfold count in *. lia. }
        destruct (Nat.le_gt_cases (length (lines_of (d_dlines d))) (length O1)) as [Hle|Hgt].
        -- destruct (app_prefix (lines_of (d_dlines d)) D' O1 D2) as (O2 & -> & ->); [congruence|exact Hle|].
           specialize (IH _ _ _ O2 H').
           assert (cur + count same + count (d_dlines d) + count O2 = cur + count (same ++ lines_of (d_dlines d) ++ O2)) as EL.
           { rewrite !count_app, count_lines. lia. }
           rewrite EL in IH.
           destruct (until (stops_range (cur + count (same ++ lines_of (d_dlines d) ++ O2))) rest) as [mid post].
           destruct IH as (I1 & R & over & B & B' & J1 & J2 & J3 & J4).
           split; [cbn; congruence|]. exists (same ++ lines_of (d_slines d) ++ R), over, B, B'.
           split; [rewrite J1, <- !app_assoc; reflexivity|]. split; [exact J2|].
           split; [eapply desc_cast; [exact J3| |]; rewrite ?count_app, ?count_lines; lia|].
           cbn [filter]. rewrite Ea. constructor; assumption.
        -- destruct (app_prefix O1 D2 (lines_of (d_dlines d)) D') as (over & EV & ->); [congruence|lia|].
           assert (until (stops_range (cur + count (same ++ O1))) rest = ([], rest)) as Eu.
           { apply until_all. intros x Hx. pose proof (desc_track _ _ _ _ _ H' x Hx) as Hx'.
             unfold stops_range. apply (f_equal count) in EV. rewrite count_app, count_lines in *.
             unfold count in *. rewrite lines_length in Hgt. lia. }
           rewrite Eu. split; [reflexivity|]. exists (same ++ lines_of (d_slines d)), over, S', D'.
           split; [rewrite <- app_assoc; reflexivity|]. split; [reflexivity|].
           split.
           ++ eapply desc_cast; [exact H'| |]; rewrite ?count_app, ?count_lines; [lia|].
              apply (f_equal count) in EV. rewrite count_app, count_lines in EV. lia.
           ++ cbn [filter]. rewrite Ea. constructor; assumption.
      * specialize (IH _ _ _ O (desc_drop _ _ _ _ _ _ Ea H)).
        destruct (until (stops_range (cur + count O)) rest) as [mid post]. destruct IH as (I1 & I2).
        split; [cbn; congruence|]. cbn [filter]. rewrite Ea. exact I2.
Qed.

(** What the code collects. *)
Lemma copy_ok (P Q X : list str) base from to :
  from = base + count P -> to = from + count Q -> copy_range (P ++ Q ++ X) base from to = Ok Q.
Proof.
  intros -> ->. unfold copy_range. replace (base + count P - base) with (count P) by lia.
  replace (Z.to_nat (base + count P + count Q - (base + count P))) with (length Q) by (unfold count; lia).
  rewrite append_ok by (rewrite app_length; lia). rewrite firstn_app, Nat.sub_diag, firstn_all. cbn. rewrite app_nil_r. reflexivity.
Qed.
Lemma copy_empty l base from to : to <= from -> copy_range l base from to = Ok [].
Proof. intros H. unfold copy_range. replace (Z.to_nat (to - from)) with O by lia. reflexivity. Qed.

Lemma texts_lines l : texts l = lines_of l. Proof. reflexivity. Qed.
Definition next_start (its : list difference) (edit_end : Z) : Z :=
  match its with [] => edit_end | d :: _ => d_track d end.
Lemma code_ok edit : forall cur O its R over, covers cur O its R over ->
  forall P, edit + count P = cur ->
  exists p r, copy_range (P ++ O) edit cur (next_start its (cur + count O)) = Ok p /\
    source_loop (P ++ O) edit (cur + count O) its = Ok r /\ R = p ++ r /\
    (its = [] -> over = [] /\ r = []) /\
    (forall d0, its <> [] -> copy_range (texts (d_dlines (last its d0))) (d_track (last its d0)) (cur + count O) (tracking_end (last its d0)) = Ok over).
Proof.
  induction 1 as [cur O|cur g O2 d its R over Ha Ht H IH|cur g O1 d over Ha Ht Hd]; intros P HP.
  - exists O, []. cbn [next_start source_loop]. split.
    { rewrite <- (app_nil_r O) at 1. apply copy_ok; [lia|reflexivity]. }
    split; [reflexivity|]. split; [symmetry; apply app_nil_r|]. split; [auto|congruence].
  - destruct (IH (P ++ g ++ lines_of (d_dlines d))) as (p & r & I1 & I2 & I3 & I4 & I5).
    { rewrite !count_app, count_lines. lia. }
    rewrite <- !app_assoc in *.
    assert (cur + count g + count (d_dlines d) + count O2 = cur + count (g ++ lines_of (d_dlines d) ++ O2)) as EE.
    { rewrite !count_app, count_lines. lia. }
    rewrite EE in *. set (ee := cur + count (g ++ lines_of (d_dlines d) ++ O2)) in *.
    exists g, (lines_of (d_slines d) ++ p ++ r). split.
    { cbn [next_start]. apply copy_ok; lia. }
    split.
    { cbn [source_loop]. rewrite Ha. rewrite tend, Ht.
      change (match its with [] => ee | d' :: _ => d_track d' end) with (next_start its ee).
      rewrite I1. cbn [bind]. rewrite I2. cbn [bind]. rewrite texts_lines. reflexivity. }
    split; [rewrite I3; reflexivity|]. split; [congruence|].
    intros d0 _. rewrite last_cons. destruct its as [|d' its].
    + cbn [last]. destruct (I4 eq_refl) as [-> _]. apply copy_empty. rewrite tend, Ht. pose proof (count_pos O2). lia.
    + apply I5. congruence.
  - exists g, (lines_of (d_slines d)). split.
    { cbn [next_start]. apply copy_ok; lia. }
    split.
    { cbn [source_loop]. rewrite Ha. rewrite copy_empty.
      - cbn. rewrite texts_lines, app_nil_r. reflexivity.
      - rewrite tend. apply (f_equal count) in Hd. rewrite count_lines, !count_app in *. pose proof (count_pos over). lia. }
    split; [reflexivity|]. split; [congruence|].
    intros d0 _. cbn [last]. rewrite texts_lines, Hd. rewrite <- (app_nil_r (O1 ++ over)), <- app_assoc.
    apply copy_ok; [rewrite count_app; lia|]. rewrite tend. apply (f_equal count) in Hd.
    rewrite count_lines, !count_app in *. lia.
Qed.

Lemma covers_applied cur O its R over : covers cur O its R over -> Forall (fun d => d_applied d = true) its.
Proof. induction 1; auto. Qed.
Lemma covers_track cur O its R over : covers cur O its R over -> Forall (fun d => cur <= d_track d <= cur + count O) its.
Proof.
  induction 1 as [cur O|cur g O2 d its R over Ha Ht H IH|cur g O1 d over Ha Ht Hd]; [constructor| |].
  - rewrite !count_app, count_lines in *. constructor.
    + pose proof (count_pos g). pose proof (count_pos O2). pose proof (count_pos (d_dlines d)). lia.
    + eapply Forall_impl; [|exact IH]. cbn. intros x Hx. pose proof (count_pos g). pose proof (count_pos (d_dlines d)). lia.
  - rewrite !count_app in *. constructor; [|constructor]. pose proof (count_pos g). pose proof (count_pos O1). lia.
Qed.
Definition S_of (d : difference) : Z := count (d_slines d).
Definition D_of (d : difference) : Z := count (d_dlines d).
Lemma total_pos {A} (f : A -> Z) l : (forall x, 0 <= f x) -> 0 <= total f l.
Proof. intros H. induction l as [|x l IH]; cbn; [lia|]. specialize (H x). lia. Qed.
Lemma covers_size cur O its R over : covers cur O its R over ->
  count R <= count O + total S_of its /\ count over <= total D_of its.
Proof.
  induction 1 as [cur O|cur g O2 d its R over Ha Ht H IH|cur g O1 d over Ha Ht Hd]; cbn [total];
    rewrite ?count_app, ?count_lines, ?count_nil in *; unfold S_of, D_of in *.
  - rewrite (@count_nil str); lia.
  - pose proof (count_pos (d_dlines d)). lia.
  - apply (f_equal count) in Hd. rewrite count_app, count_lines in Hd. pose proof (count_pos O1). lia.
Qed.

(** * The whole region *)
Lemma region_ok s S D1 old D2 new ds edit :
  describes s s S (D1 ++ old ++ D2) ds -> edit = s + count D1 -> harmless edit ds ->
  let edit_end := edit + count old in
  let '(pre, rest) := until (starts_range edit) ds in
  let '(mid, post) := until (stops_range edit_end) rest in
  let its := filter d_applied mid in
  ds = pre ++ mid ++ post /\ Forall (fun d => touched edit edit_end d = true) its /\
  exists A A' R R' B B',
    S = A ++ R ++ B /\ D1 ++ new ++ D2 = A' ++ R' ++ B' /\ describes s s A A' pre /\
    describes (s + count A + count R) (s + count A' + count R' + count old - count new) B B' post /\
    region_numbers edit ds rest = (s + count A, s + count A') /\
    region_lines old new edit edit_end its = Ok (R, R') /\
    count R <= count old + total S_of its /\ count R' <= count new + total D_of its /\
    (its = [] -> R = old /\ R' = new).
Proof.
  intros H Ee Hh edit_end.
  assert (forall d, In d ds -> d_applied d = false -> starts_range edit d = false -> d_track d + count (d_slines d) <= edit) as Hu.
  { intros d Hd Ha Hs. apply in_split in Hd as (l1 & l2 & Hd). pose proof (Hh l1 d l2 Hd Ha) as Hc.
    unfold starts_range in Hs. rewrite tend in Hs. pose proof (count_pos (d_dlines d)). destruct Hc as [Hc|[Hc|(Hc & _ & _)]]; lia. }
  pose proof (before_ok (old ++ D2) edit ds s s S D1 H Ee Hu) as HB.
  destruct (until (starts_range edit) ds) as [pre rest]. destruct HB as (B1 & B2 & Bf & A & A' & S2 & D1' & J1 & J2 & J3 & J4 & J5 & J6).
  assert (edit = s + count A' + count D1') as Ee' by (rewrite J2, count_app in Ee; lia).
  (* is the first difference an applied one that starts before the edit? *)
  assert ((exists d0 rest', rest = d0 :: rest' /\ d_applied d0 = true /\ d_track d0 < edit) \/
          (exists S3, S2 = D1' ++ S3 /\ region_numbers edit ds rest = (s + count A + count D1', s + count A' + count D1') /\
             exists rest', describes (s + count A + count D1') edit S3 (old ++ D2) rest' /\
               (rest' = rest \/ exists d0, rest = d0 :: rest' /\ d_applied d0 = false /\ stops_range edit_end d0 = false))) as [Hfirst|Hfirst].
  { destruct rest as [|d0 rest'].
    - right. inversion J4; subst S2. exists (old ++ D2). split; [reflexivity|]. split.
      + unfold region_numbers. rewrite B1, app_nil_r. destruct pre as [|p pre].
        * destruct (J6 eq_refl) as [-> ->]. rewrite !count_nil in *. f_equal; lia.
        * f_equal; [|lia]. destruct (J5 p) as [K1 K2]; [congruence|].
          assert (count (shown (last (p :: pre) p)) = count (d_dlines (last (p :: pre) p))) as Hc.
          { destruct (d_applied (last (p :: pre) p)) eqn:Ea; [apply real_end; exact Ea|]. rewrite real_end' by exact Ea.
            destruct (Hh (removelast (p :: pre)) (last (p :: pre) p) []) as [Hc|[Hc|Hc]].
            - rewrite B1, app_nil_r. apply app_removelast_last. congruence.
            - exact Ea.
            - exact Hc.
            - pose proof (desc_track _ _ _ _ _ J3) as _. pose proof (count_pos (shown (last (p :: pre) p))). pose proof (count_pos D1'). lia.
            - destruct Hc as (_ & _ & Hc). congruence. }
          rewrite K1, tend. lia.
      + exists []. split; [apply desc_end|]. left. reflexivity.
    - cbn in B2. destruct (d_applied d0) eqn:Ea.
      + destruct (Z.lt_ge_cases (d_track d0) edit) as [Hlt|Hge]; [left; eauto|]. right.
        destruct (desc_cut _ _ _ _ _ _ J4) as (S3 & -> & J4'); [cbn; lia|].
        exists S3. split; [reflexivity|]. split.
        * unfold region_numbers. rewrite Ea. assert (Z.leb edit (d_track d0) = true) as -> by lia. cbn [negb orb].
          inversion J4' as [|? ? same ? ? ? ? E1 E2]; subst. f_equal; lia.
        * exists (d0 :: rest'). split; [eapply desc_cast; [exact J4'| |]; lia|]. left. reflexivity.
      + right. destruct (Z.lt_ge_cases (d_track d0) edit) as [Hlt|Hge].
        * pose proof (desc_drop _ _ _ _ _ _ Ea J4) as J4'.
          assert (edit <= d_track d0 + count (d_slines d0)) as Hspan.
          { destruct (Hh pre d0 rest' B1 Ea) as [Hc|[Hc|Hc]]; unfold starts_range in B2; rewrite tend in B2; lia. }
          destruct (desc_cut _ _ _ _ _ _ J4') as (S3 & E3 & J5').
          { destruct rest' as [|d1 rest']; [exact I|]. cbn.
            inversion J4 as [|? ? same ? ? ? ? E1 E2 H1 G1 G2 G3]; subst.
            pose proof (desc_track _ _ _ _ _ H1 d1 (or_introl eq_refl)). rewrite (real_end' d0 Ea) in *. lia. }
          exists S3. split; [exact E3|]. split.
          -- unfold region_numbers. rewrite Ea. cbn [negb orb].
             inversion J4 as [|? ? same ? ? ? ? E1 E2]; subst. f_equal; lia.
          -- exists rest'. split; [eapply desc_cast; [exact J5'| |]; lia|]. right. exists d0.
             split; [reflexivity|]. split; [exact Ea|]. unfold stops_range, edit_end. pose proof (count_pos old). lia.
        * destruct (desc_cut _ _ _ _ _ _ J4) as (S3 & -> & J4'); [cbn; lia|].
          exists S3. split; [reflexivity|]. split.
          -- unfold region_numbers. rewrite Ea. cbn [negb orb].
             inversion J4' as [|? ? same ? ? ? ? E1 E2]; subst. f_equal; lia.
          -- exists (d0 :: rest'). split; [eapply desc_cast; [exact J4'| |]; lia|]. left. reflexivity. }
  - (* the region starts with the first difference *)
    destruct Hfirst as (d0 & rest' & -> & Ea & Hlt).
    inversion J4 as [|s' t' g S' D' d' ds' E1 E2 H1 F1 F2 F3 F4]; subst s' t' d' ds' S2.
    match goal with F : _ ++ shown _ ++ D' = _ |- _ => rename F into FD end.
        unfold shown in FD. rewrite Ea in FD.
    destruct (app_prefix g (lines_of (d_dlines d0) ++ D') D1' (old ++ D2)) as (dpre & -> & EO).
    { congruence. } { rewrite ?count_app in *. unfold count in *. lia. }
    rewrite count_app in Ee'.
    assert (describes (s + count A + count g) (d_track d0) (lines_of (d_slines d0) ++ S') ((dpre ++ old) ++ D2) (d0 :: rest')) as J4'.
    { rewrite <- app_assoc. rewrite <- EO. 
      replace (lines_of (d_dlines d0) ++ D') with ([] ++ shown d0 ++ D') by (unfold shown; rewrite Ea; reflexivity).
      change (lines_of (d_slines d0) ++ S') with ([] ++ lines_of (d_slines d0) ++ S').
      constructor; rewrite ?count_nil; try lia. eapply desc_cast; [exact H1| |]; lia. }
    pose proof (within_ok D2 _ _ _ _ (dpre ++ old) J4') as HW.
    assert (d_track d0 + count (dpre ++ old) = edit_end) as EE by (unfold edit_end; rewrite count_app; lia).
    rewrite EE in HW.
    destruct (until (stops_range edit_end) (d0 :: rest')) as [mid post] eqn:Eu.
    destruct HW as (W1 & R & over & B & B' & K1 & K2 & K3 & K4).
    assert (exists mid', mid = d0 :: mid') as [mid' ->].
    { cbn [until] in Eu. assert (stops_range edit_end d0 = false) as Es.
      { unfold stops_range. rewrite Ea. unfold edit_end. pose proof (count_pos old). lia. }
      rewrite Es in Eu. destruct (until (stops_range edit_end) rest') as [m1 p1]. injection Eu as <- <-. eauto. }
    cbn [filter] in *. rewrite Ea in *. set (its := filter d_applied mid') in *.
    assert (edit <= tracking_end d0) as Hte.
    { cbn in B2. unfold starts_range in B2. lia. }
    assert (exists x, lines_of (d_dlines d0) = dpre ++ x) as [x Ex].
    { destruct (app_prefix dpre (old ++ D2) (lines_of (d_dlines d0)) D') as (x & Ex & _).
      - congruence.
      - apply Nat2Z.inj_le. fold (count dpre) (count (lines_of (d_dlines d0))). rewrite count_lines. rewrite tend in Hte. lia.
      - eauto. }
    split; [congruence|].
    assert (Forall (fun d => touched edit edit_end d = true) (d0 :: its) /\
            region_lines old new edit edit_end (d0 :: its) = Ok (R, dpre ++ new ++ over) /\
            count R <= count old + total S_of (d0 :: its) /\
            count (dpre ++ new ++ over) <= count new + total D_of (d0 :: its)) as (Q0 & Q1 & Q2 & Q3).
    { unfold region_lines. assert (Z.leb edit (d_track d0) = false) as -> by lia.
      assert (copy_range (texts (d_dlines d0)) (d_track d0) (d_track d0) edit = Ok dpre) as ->.
      { rewrite texts_lines, Ex. change (dpre ++ x) with ([] ++ dpre ++ x). apply copy_ok; rewrite ?count_nil; lia. }
      cbn [bind].
      assert (touched edit edit_end d0 = true) as Ht0.
      { unfold touched. rewrite Ea. rewrite tend in Hte. unfold edit_end. pose proof (count_pos old). lia. }
      destruct (covers_cons_inv _ _ _ _ _ _ K4) as [(g1 & O2 & R1 & G1 & -> & Ht1 & HC)|(g1 & O1 & E0 & G1 & -> & Ht1 & Hd1)].
      - assert (g1 = []) as -> by (destruct g1; [reflexivity|rewrite count_cons in Ht1; pose proof (count_pos g1); lia]).
        cbn [app] in *. rewrite !count_nil, !Z.add_0_r in *.
        rewrite Ex in G1. rewrite <- app_assoc in G1. apply app_inv_head in G1.
        pose proof (code_ok edit _ _ _ _ _ HC x) as HCo.
        assert (count (d_dlines d0) = count dpre + count x) as Cx by (rewrite <- count_lines, Ex, count_app; reflexivity).
        destruct HCo as (p & r & I1 & I2 & I3 & I4 & I5); [lia|].
        assert (count old = count x + count O2) as Co by (rewrite G1, count_app; reflexivity).
        assert (d_track d0 + count (d_dlines d0) + count O2 = edit_end) as EE2 by (unfold edit_end; lia).
        rewrite EE2 in *. rewrite <- G1 in I1, I2.
        assert (copy_range (texts (d_dlines (last (d0 :: its) d0))) (d_track (last (d0 :: its) d0)) edit_end (tracking_end (last (d0 :: its) d0)) = Ok over) as ->.
        { rewrite last_cons. destruct its as [|i1 its']; [|apply I5; congruence]. cbn [last].
          destruct (I4 eq_refl) as [-> _]. apply copy_empty. rewrite tend. pose proof (count_pos O2). lia. }
        cbn [bind source_loop]. rewrite Ea, tend.
        change (match its with [] => edit_end | d' :: _ => d_track d' end) with (next_start its edit_end).
        rewrite I1. cbn [bind]. rewrite I2. cbn [bind].
        pose proof (covers_track _ _ _ _ _ HC) as Htr. pose proof (covers_applied _ _ _ _ _ HC) as Hap.
        pose proof (covers_size _ _ _ _ _ HC) as [Z1 Z2]. rewrite EE2 in Htr.
        split.
        { constructor; [exact Ht0|]. apply Forall_forall. intros i Hi. rewrite Forall_forall in Htr, Hap.
          specialize (Htr i Hi). specialize (Hap i Hi). unfold touched. rewrite Hap.
          pose proof (count_pos (d_dlines i)). rewrite tend in Hte. lia. }
        split; [rewrite I3; reflexivity|]. cbn [total]. rewrite !count_app, count_lines.
        unfold S_of at 1, D_of at 1. pose proof (count_pos x). lia.
      - assert (g1 = []) as -> by (destruct g1; [reflexivity|rewrite count_cons in Ht1; pose proof (count_pos g1); lia]).
        clearbody its. subst its. cbn [app] in *. subst O1. rewrite !count_nil, !Z.add_0_r in *. 
        assert (count (d_dlines d0) = count dpre + count old + count over) as Cx.
        { rewrite <- count_lines, Hd1, !count_app. lia. }
        cbn [last].
        assert (copy_range (texts (d_dlines d0)) (d_track d0) edit_end (tracking_end d0) = Ok over) as ->.
        { rewrite texts_lines, Hd1. rewrite <- (app_nil_r ((dpre ++ old) ++ over)), <- app_assoc.
          apply copy_ok; [rewrite count_app; unfold edit_end; lia|]. rewrite tend. unfold edit_end. lia. }
        cbn [bind source_loop]. rewrite Ea. rewrite copy_empty by (rewrite tend; unfold edit_end; pose proof (count_pos over); lia).
        cbn [bind]. rewrite texts_lines. cbn [app]. rewrite app_nil_r.
        split; [constructor; [exact Ht0|constructor]|]. split; [reflexivity|]. cbn [total].
        rewrite !count_app, count_lines. unfold S_of, D_of. pose proof (count_pos old). lia. }
    split; [exact Q0|].
    exists (A ++ g), (A' ++ g), R, (dpre ++ new ++ over), B, B'.
    split.
    { rewrite J1. rewrite <- !app_assoc. rewrite K1. reflexivity. }
    split.
    { rewrite J2, K2. rewrite <- !app_assoc. reflexivity. }
    split.
    { rewrite <- (app_nil_r pre). eapply desc_app; [exact J3|]. constructor. }
    split.
    { eapply desc_cast; [exact K3| |]; rewrite !count_app; rewrite ?count_app in *; unfold edit_end; lia. }
    split.
    { unfold region_numbers. rewrite Ea. assert (Z.leb edit (d_track d0) = false) as -> by lia. cbn [negb orb]. rewrite !count_app. f_equal; lia. }
    split; [exact Q1|]. split; [exact Q2|]. split; [exact Q3|]. congruence.
  - (* the region starts at the edited line *)
    destruct Hfirst as (S3 & -> & Hnum & rest' & J4' & Hrest).
    pose proof (within_ok D2 _ _ _ _ old J4') as HW. fold edit_end in HW.
    assert (exists mid post, until (stops_range edit_end) rest = (mid, post) /\ rest = mid ++ post /\
              exists R over B B', S3 = R ++ B /\ D2 = over ++ B' /\
                describes (s + count A + count D1' + count R) (edit_end + count over) B B' post /\
                covers edit old (filter d_applied mid) R over) as (mid & post & -> & W1 & R & over & B & B' & K1 & K2 & K3 & K4).
    { destruct Hrest as [->|(d0 & -> & Hd0 & Hs0)].
      - destruct (until (stops_range edit_end) rest) as [mid post]. destruct HW as (W1 & W2). exists mid, post. auto.
      - cbn [until]. rewrite Hs0. destruct (until (stops_range edit_end) rest') as [mid post]. destruct HW as (W1 & W2).
        exists (d0 :: mid), post. split; [reflexivity|]. split; [cbn; congruence|]. cbn [filter]. rewrite Hd0. exact W2. }
    set (its := filter d_applied mid) in *.
    split; [congruence|].
    pose proof (covers_track _ _ _ _ _ K4) as Htr. pose proof (covers_applied _ _ _ _ _ K4) as Hap.
    pose proof (covers_size _ _ _ _ _ K4) as [Z1 Z2]. fold edit_end in Htr.
    split.
    { apply Forall_forall. intros i Hi. rewrite Forall_forall in Htr, Hap.
      specialize (Htr i Hi). specialize (Hap i Hi). unfold touched. rewrite Hap. pose proof (count_pos (d_dlines i)). lia. }
    destruct (code_ok edit _ _ _ _ _ K4 []) as (p & r & I1 & I2 & I3 & I4 & I5); [rewrite count_nil; lia|].
    cbn [app] in I1, I2. fold edit_end in I1, I2, I5.
    assert (region_lines old new edit edit_end its = Ok (R, new ++ over) /\ (its = [] -> R = old /\ over = [])) as [Q1 Q2].
    { unfold region_lines. destruct its as [|d1 its'].
      - destruct (I4 eq_refl) as [-> _]. inversion K4; subst. rewrite app_nil_r. auto.
      - split; [|congruence].
        assert (edit <= d_track d1) as Hd1 by (rewrite Forall_forall in Htr; specialize (Htr d1 (or_introl eq_refl)); lia).
        rewrite copy_empty by lia. cbn [bind]. rewrite (I5 d1) by congruence. cbn [bind].
        assert (Z.leb edit (d_track d1) = true) as -> by lia. cbn [next_start] in I1. rewrite I1. cbn [bind]. rewrite I2. cbn [bind app].
        rewrite I3. reflexivity. }
    exists (A ++ D1'), (A' ++ D1'), R, (new ++ over), B, B'.
    split; [rewrite J1, K1, <- !app_assoc; reflexivity|]. split; [rewrite J2, K2, <- !app_assoc; reflexivity|].
    split. { rewrite <- (app_nil_r pre). eapply desc_app; [exact J3|]. constructor. }
    split. { eapply desc_cast; [exact K3| |]; rewrite !count_app; unfold edit_end; lia. }
    split. { rewrite Hnum, !count_app. f_equal; lia. }
    split; [exact Q1|]. split; [exact Z1|]. rewrite count_app. split; [lia|].
    intros E. destruct (Q2 E) as [-> ->]. rewrite app_nil_r. auto.
Qed.
