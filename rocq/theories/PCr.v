(** Facts about diffs with Windows line ends. *)
From Coq Require Import String Permutation.
From Verif Require Import Base QtStr Lev Diff Regex Patterns Parser SpecPatch SpecParse SpecLines SpecCr SpecRegex
  PRegex PRegexLang PAnyInput PLineUnified.
Local Open Scope Z_scope.

Lemma end_two (a t : str) x : a ++ [NL] = t ++ [x; NL] -> a = t ++ [x].
Proof. intros E. change [x; NL] with ([x] ++ [NL]) in E. rewrite app_assoc in E. now apply app_inv_tail in E. Qed.
Lemma end_one (a b : str) (x y : chr) : a ++ [x] = b ++ [y] -> a = b /\ x = y.
Proof. apply app_inj_tail. Qed.
Lemma last_cr (p t : str) (mark q : str) : p <> [] -> mark ++ p = t ++ [CR] -> exists p0, p = p0 ++ [CR] /\ t = mark ++ p0.
Proof.
  intros N E. destruct (exists_last N) as (p0 & x & ->). rewrite app_assoc in E. apply app_inj_tail in E as [E ->]. exists p0. auto.
Qed.

(** * Headers *)
Lemma header_cr mark l l' p t : crlf l l' -> header_line mark l p t ->
  exists p' t', header_line mark l' p' t' /\ ((t <> [] /\ p' = p /\ (t' = t \/ t' = t ++ [CR])) \/ (t = [] /\ t' = [] /\ p' = p ++ [CR])).
Proof.
  intros (T & O & -> & ->) H. inversion H as [p0 A B E|p0 t0 A B C D E|p0 t0 x A B C D F E]; subst.
  - rewrite app_assoc in E. apply end_one in E as [E _]. subst T. exists (p ++ [CR]), []. split.
    + rewrite <- !app_assoc. change (mark ++ p ++ [CR; NL]) with (mark ++ p ++ [CR] ++ [NL]). rewrite (app_assoc p). apply hl_name.
      * destruct p; discriminate.
      * intros I. apply in_app_or in I as [I|[I|[]]]; [contradiction|discriminate I].
    + right. auto.
  - exists p, (t ++ [CR]). split; [|left; auto].
    assert (T = mark ++ p ++ TAB :: t) as ->. { change (TAB :: t ++ [NL]) with ((TAB :: t) ++ [NL]) in E. rewrite !app_assoc in E. apply end_one in E as [E _]. rewrite <- E, <- app_assoc. reflexivity. }
    replace ((mark ++ p ++ TAB :: t) ++ [CR; NL]) with (mark ++ p ++ TAB :: (t ++ [CR]) ++ [NL]) by (rewrite <- !app_assoc; cbn [app]; rewrite <- ?app_assoc; reflexivity).
    apply hl_stamp; auto.
    + destruct t; discriminate.
    + intros I. apply in_app_or in I as [I|[I|[]]]; [contradiction|discriminate I].
  - exists p, t. split; [|left; auto].
    assert (T = mark ++ p ++ TAB :: t ++ TAB :: x) as ->.
    { apply end_one with (x := NL) (y := NL). rewrite <- E. rewrite <- !app_assoc. cbn [app]. rewrite <- ?app_assoc. reflexivity. }
    replace ((mark ++ p ++ TAB :: t ++ TAB :: x) ++ [CR; NL]) with (mark ++ p ++ TAB :: t ++ TAB :: (x ++ [CR]) ++ [NL]).
    2:{ rewrite <- !app_assoc. cbn [app]. rewrite <- ?app_assoc. reflexivity. }
    apply hl_more; auto. intros I. apply in_app_or in I as [I|[I|[]]]; [contradiction|discriminate I].
Qed.
Lemma header_cr_back mark l l' p t : (mark = lit "--- " \/ mark = lit "+++ ") -> crlf l l' -> ~ unfinished l -> header_line mark l' p t ->
  exists p' t', header_line mark l p' t'.
Proof.
  intros HM (T & O & -> & ->) U H. inversion H as [p0 A B E|p0 t0 A B C D E|p0 t0 x A B C D F E]; subst.
  - rewrite app_assoc in E. apply end_two in E. destruct (exists_last A) as (q & z & ->). rewrite app_assoc in E. apply end_one in E as [<- ->].
    destruct q as [|c q].
    + exfalso. apply U. exists mark. split; [exact HM|]. left. rewrite app_nil_r. reflexivity.
    + exists (c :: q), []. rewrite <- app_assoc. apply hl_name; [discriminate|]. intros I. apply B. apply in_or_app. auto.
  - destruct (exists_last C) as (q & z & ->).
    assert (E2 : (mark ++ p ++ TAB :: q) ++ [z; NL] = T ++ [CR; NL]).
    { rewrite <- E. rewrite <- !app_assoc. cbn [app]. rewrite <- ?app_assoc. reflexivity. }
    assert (Q : T = mark ++ p ++ TAB :: q).
    { change [z; NL] with ([z] ++ [NL]) in E2. rewrite app_assoc in E2. apply end_two in E2. apply end_one in E2 as [E2 _]. now symmetry. }
    subst T. destruct q as [|c q].
    + exfalso. apply U. exists mark. split; [exact HM|]. right. exists p. split; [exact B|]. rewrite <- !app_assoc. reflexivity.
    + exists p, (c :: q). replace ((mark ++ p ++ TAB :: c :: q) ++ [NL]) with (mark ++ p ++ TAB :: (c :: q) ++ [NL]) by (rewrite <- !app_assoc; reflexivity).
      apply hl_stamp; auto; [discriminate|]. intros I. apply D. apply in_or_app. auto.
  - assert (E2 : (mark ++ p ++ TAB :: t ++ TAB :: x) ++ [NL] = T ++ [CR; NL]).
    { rewrite <- E. rewrite <- !app_assoc. cbn [app]. rewrite <- ?app_assoc. reflexivity. }
    apply end_two in E2. destruct x as [|c x].
    + exfalso. assert (K : (mark ++ p ++ TAB :: t) ++ [TAB] = T ++ [CR]) by (rewrite <- E2, <- !app_assoc; reflexivity).
      apply end_one in K as [_ K]. discriminate K.
    + destruct (@exists_last _ (c :: x)) as (q & z & Q); [discriminate|]. rewrite Q in *.
      assert (K : (mark ++ p ++ TAB :: t ++ TAB :: q) ++ [z] = T ++ [CR]).
      { rewrite <- E2. rewrite <- !app_assoc. cbn [app]. rewrite <- ?app_assoc. reflexivity. }
      apply end_one in K as [<- _]. exists p, t.
      replace ((mark ++ p ++ TAB :: t ++ TAB :: q) ++ [NL]) with (mark ++ p ++ TAB :: t ++ TAB :: q ++ [NL]).
      2:{ rewrite <- !app_assoc. cbn [app]. rewrite <- ?app_assoc. reflexivity. }
      apply hl_more; auto. intros I. apply F. apply in_or_app. auto.
Qed.

(** * Hunks *)
Lemma range_cr l l' r1 r2 f : crlf l l' -> range_line l r1 r2 f -> range_line l' r1 r2 (f ++ [CR]).
Proof.
  assert (J : forall f, one_line f -> one_line (f ++ [CR])).
  { intros g O I. apply in_app_or in I as [I|[I|[]]]; [contradiction|discriminate I]. }
  intros (T & O & -> & ->) H. inversion H as [s1 s2 q1 q2 g R1 R2 OL E|s1 s2 q1 q2 g R1 R2 OL N E]; subst.
  - assert (T = lit "@@ -" ++ s1 ++ lit " +" ++ s2 ++ lit " @@" ++ SP :: f) as ->.
    { apply end_one with (x := NL) (y := NL). rewrite <- E. rewrite <- !app_assoc. cbn [app]. reflexivity. }
    replace ((lit "@@ -" ++ s1 ++ lit " +" ++ s2 ++ lit " @@" ++ SP :: f) ++ [CR; NL]) with (lit "@@ -" ++ s1 ++ lit " +" ++ s2 ++ lit " @@" ++ SP :: (f ++ [CR]) ++ [NL]).
    2:{ rewrite <- !app_assoc. cbn [app]. rewrite <- ?app_assoc. reflexivity. }
    apply rl_blank; auto.
  - assert (T = lit "@@ -" ++ s1 ++ lit " +" ++ s2 ++ lit " @@" ++ f) as ->.
    { apply end_one with (x := NL) (y := NL). rewrite <- E. rewrite <- !app_assoc. cbn [app]. reflexivity. }
    replace ((lit "@@ -" ++ s1 ++ lit " +" ++ s2 ++ lit " @@" ++ f) ++ [CR; NL]) with (lit "@@ -" ++ s1 ++ lit " +" ++ s2 ++ lit " @@" ++ (f ++ [CR]) ++ [NL]).
    2:{ rewrite <- !app_assoc. cbn [app]. rewrite <- ?app_assoc. reflexivity. }
    apply rl_none; auto. intros y Q. destruct f as [|c f]; cbn [app] in Q; [discriminate Q|]. injection Q as -> _. eapply N. reflexivity.
Qed.
Lemma range_cr_back l l' r1 r2 f : crlf l l' -> range_line l' r1 r2 f -> exists f0, range_line l r1 r2 f0.
Proof.
  intros (T & O & -> & ->) H. inversion H as [s1 s2 q1 q2 g R1 R2 OL E|s1 s2 q1 q2 g R1 R2 OL N E]; subst.
  - assert (E2 : (lit "@@ -" ++ s1 ++ lit " +" ++ s2 ++ lit " @@" ++ SP :: f) ++ [NL] = T ++ [CR; NL]).
    { rewrite <- E. rewrite <- !app_assoc. cbn [app]. reflexivity. }
    apply end_two in E2. destruct f as [|c f].
    + exfalso. assert (K : (lit "@@ -" ++ s1 ++ lit " +" ++ s2 ++ lit " @@") ++ [SP] = T ++ [CR]) by (rewrite <- E2, <- !app_assoc; reflexivity).
      apply end_one in K as [_ K]. discriminate K.
    + destruct (@exists_last _ (c :: f)) as (q & z & Q); [discriminate|]. rewrite Q in *.
      assert (K : (lit "@@ -" ++ s1 ++ lit " +" ++ s2 ++ lit " @@" ++ SP :: q) ++ [z] = T ++ [CR]).
      { rewrite <- E2. rewrite <- !app_assoc. cbn [app]. rewrite <- ?app_assoc. reflexivity. }
      apply end_one in K as [<- _]. exists q.
      replace ((lit "@@ -" ++ s1 ++ lit " +" ++ s2 ++ lit " @@" ++ SP :: q) ++ [NL]) with (lit "@@ -" ++ s1 ++ lit " +" ++ s2 ++ lit " @@" ++ SP :: q ++ [NL]).
      2:{ rewrite <- !app_assoc. cbn [app]. rewrite <- ?app_assoc. reflexivity. }
      apply rl_blank; auto. intros I. apply OL. apply in_or_app. auto.
  - assert (E2 : (lit "@@ -" ++ s1 ++ lit " +" ++ s2 ++ lit " @@" ++ f) ++ [NL] = T ++ [CR; NL]).
    { rewrite <- E. rewrite <- !app_assoc. cbn [app]. reflexivity. }
    apply end_two in E2. destruct f as [|c f].
    + exfalso. assert (K : (lit "@@ -" ++ s1 ++ lit " +" ++ s2 ++ lit " @") ++ [64%N] = T ++ [CR]) by (rewrite <- E2, <- !app_assoc; reflexivity).
      apply end_one in K as [_ K]. discriminate K.
    + destruct (@exists_last _ (c :: f)) as (q & z & Q); [discriminate|]. rewrite Q in *.
      assert (K : (lit "@@ -" ++ s1 ++ lit " +" ++ s2 ++ lit " @@" ++ q) ++ [z] = T ++ [CR]).
      { rewrite <- E2. rewrite <- !app_assoc. cbn [app]. rewrite <- ?app_assoc. reflexivity. }
      apply end_one in K as [<- _]. exists q.
      replace ((lit "@@ -" ++ s1 ++ lit " +" ++ s2 ++ lit " @@" ++ q) ++ [NL]) with (lit "@@ -" ++ s1 ++ lit " +" ++ s2 ++ lit " @@" ++ q ++ [NL]).
      2:{ rewrite <- !app_assoc. cbn [app]. rewrite <- ?app_assoc. reflexivity. }
      apply rl_none; auto.
      * intros I. apply OL. apply in_or_app. auto.
      * intros y ->. apply (N (y ++ [z])). reflexivity.
Qed.
(** A line and its mark. *)
Lemma crlf_mark c t l' : crlf (c :: t) l' -> c <> NL -> exists t', l' = c :: t' /\ crlf t t'.
Proof.
  intros (T & O & E & ->) N. destruct T as [|d T]; cbn [app] in E; injection E as -> ->; [contradiction|].
  exists (T ++ [CR; NL]). split; [reflexivity|]. exists T. split; [|auto]. intros I. apply O. right. exact I.
Qed.
Lemma crlf_mark_back c t l : crlf l (c :: t) -> c <> CR -> exists t', l = c :: t'.
Proof. intros (T & O & -> & E) N. destruct T as [|d T]; cbn [app] in E; injection E as -> _; [contradiction|]. eexists. reflexivity. Qed.
Lemma run_cr mark da db : mark <> CR -> mark <> NL -> forall ca cb ls ts ca' cb' rest, run mark da db ca cb ls ts ca' cb' rest ->
  forall ls', Forall2 crlf ls ls' -> exists ts' rest', Forall2 crlf ts ts' /\ Forall2 crlf rest rest' /\ run mark da db ca cb ls' ts' ca' cb' rest'.
Proof.
  intros N1 N2. induction 1 as [ca cb ls S|ca cb t ls ts ca' cb' rest N R IH]; intros ls' F.
  - exists [], ls'. split; [constructor|]. split; [exact F|]. apply run_stop. destruct S as [S|S]; [auto|right].
    intros t r E. subst ls'. inversion F as [|l ? ls0 ? C F']; subst. apply crlf_mark_back in C as (t' & ->); [|exact N1]. eapply S. reflexivity.
  - inversion F as [|? l' ? ls0 C F']; subst. apply crlf_mark in C as (t' & -> & C); [|exact N2]. apply IH in F' as (ts' & rest' & A & B & D).
    exists (t' :: ts'), rest'. split; [constructor; assumption|]. split; [exact B|]. now apply run_line.
Qed.
Lemma made ty a b track o n : exists d, shows d ty o n /\ d_src d = a /\ d_dst d = b /\ d_track d = track.
Proof.
  exists (mk_diff ty a b track (map new_ds o) (map new_ds n) false false false false).
  assert (L : forall x, lines_of (map new_ds x) = x).
  { intros x. unfold lines_of. rewrite map_map. rewrite (map_ext _ (fun y => y)); [apply map_id|reflexivity]. }
  unfold shows. cbn [d_type d_slines d_dlines d_src d_dst d_track]. rewrite !L. auto.
Qed.
Lemma F2_nil {A B} (R : A -> B -> Prop) l l' : Forall2 R l l' -> (l = [] <-> l' = []).
Proof. destruct 1; split; auto; discriminate. Qed.
Lemma change_cr o o' n n' : Forall2 crlf o o' -> Forall2 crlf n n' -> change_of o' n' = change_of o n.
Proof. destruct 1, 1; reflexivity. Qed.
Lemma crlf_shows d d' ty o n o' n' : shows d ty o n -> shows d' ty o' n' -> Forall2 crlf o o' -> Forall2 crlf n n' -> crlf_difference d d'.
Proof. intros (A & B & C) (A' & B' & C') F F'. unfold crlf_difference. rewrite A, B, C, A', B', C'. auto. Qed.
Lemma counted_cr ca cb ls ds rest : counted ca cb ls ds rest -> forall ls', Forall2 crlf ls ls' ->
  exists ds' rest', counted ca cb ls' ds' rest' /\ Forall2 crlf_difference ds ds' /\ Forall2 crlf rest rest'.
Proof.
  assert (HM : SP <> CR /\ SP <> NL /\ MINUS <> CR /\ MINUS <> NL /\ PLUS <> CR /\ PLUS <> NL) by (repeat split; discriminate).
  destruct HM as (M1 & M2 & M3 & M4 & M5 & M6).
  induction 1 as [ca cb ls S|ca cb ls ts ca' cb' ls1 d ds rest R NE SH C IH|ca cb ls old c1 c2 ls1 new c3 c4 ls2 d ds rest R1 R2 NE SH C IH]; intros ls' F.
  - exists [], ls'. split; [|split; [constructor|exact F]]. apply cn_stop. destruct S as [S|S]; [auto|right].
    intros c t r ->. inversion F as [|l ? ls0 ? X F']; subst. assert (Y : c <> SP /\ c <> PLUS /\ c <> MINUS \/ c = SP \/ c = PLUS \/ c = MINUS).
    { destruct (N.eq_dec c SP), (N.eq_dec c PLUS), (N.eq_dec c MINUS); tauto. }
    destruct Y as [Y|Y]; [exact Y|]. assert (c <> CR) by (destruct Y as [-> | [-> | ->]]; discriminate).
    apply crlf_mark_back in X as (t' & ->); [|assumption]. eapply S. reflexivity.
  - destruct (run_cr _ _ _ M1 M2 _ _ _ _ _ _ _ R _ F) as (ts' & ls1' & A & B & R'). destruct (IH _ B) as (ds' & rest' & C' & D' & E').
    destruct (made Unchanged 0 0 0 ts' ts') as (d' & SH' & _). exists (d' :: ds'), rest'. split; [|split; [|exact E']].
    + eapply cn_common; eauto. intros Z. apply NE. now apply (F2_nil _ _ _ A).
    + constructor; [|exact D']. eapply crlf_shows; eauto.
  - destruct (run_cr _ _ _ M3 M4 _ _ _ _ _ _ _ R1 _ F) as (o' & ls1' & A & B & R1'). destruct (run_cr _ _ _ M5 M6 _ _ _ _ _ _ _ R2 _ B) as (n' & ls2' & A2 & B2 & R2').
    destruct (IH _ B2) as (ds' & rest' & C' & D' & E'). destruct (made (change_of old new) 0 0 0 o' n') as (d' & SH' & _). exists (d' :: ds'), rest'. split; [|split; [|exact E']].
    + eapply cn_changed; eauto.
      * destruct NE as [NE|NE]; [left|right]; intros Z; apply NE; [now apply (F2_nil _ _ _ A)|now apply (F2_nil _ _ _ A2)].
      * rewrite (change_cr _ _ _ _ A A2). exact SH'.
    + constructor; [|exact D']. eapply crlf_shows; eauto.
Qed.
Lemma crlf_same_shows ds : forall es es', Forall2 crlf_difference ds es -> map difference_shows es = map difference_shows es' -> Forall2 crlf_difference ds es'.
Proof.
  induction ds as [|d ds IH]; intros es es' F E; inversion F as [|? e ? es0 C F']; subst.
  - destruct es'; [constructor|discriminate E].
  - destruct es' as [|e' es']; [discriminate E|]. cbn [map] in E. unfold difference_shows at 1 3 in E. injection E as X Y Z E2. constructor; [|eauto].
    unfold crlf_difference in *. rewrite <- X, <- Y, <- Z. exact C.
Qed.
(** Hunks: read from both texts. *)
Lemma patches_both ls hs rest : patches ls hs rest -> forall ls' hs' rest', Forall2 crlf ls ls' -> patches ls' hs' rest' ->
  Forall2 crlf_hunk hs hs' /\ Forall2 crlf rest rest'.
Proof.
  induction 1 as [rest N|l r1 r2 f ls hs rest R U P IH|l a ca b cb f ls ls1 h ds hs rest R C CT PS A1 A2 A3 A4 P IH]; intros ls' hs' rest' F H';
    inversion H' as [? N'|l' r1' r2' f' ls2 ? ? R' U' P'|l' a' ca' b' cb' f' ls2 ls3 h' ds' hs'' ? R' C' CT' PS' B1 B2 B3 B4 P']; subst.
  - auto.
  - exfalso. inversion F as [|x ? ? ? X F']; subst. destruct (range_cr_back _ _ _ _ _ X R') as [f0 R0]. eapply N; eauto.
  - exfalso. inversion F as [|x ? ? ? X F']; subst. destruct (range_cr_back _ _ _ _ _ X R') as [f0 R0]. eapply N; eauto.
  - exfalso. inversion F as [|? x ? ? X F']; subst. eapply N'; [reflexivity|]. eapply range_cr; eauto.
  - inversion F as [|? ? ? ? X F']; subst. eauto.
  - exfalso. inversion F as [|? ? ? ? X F']; subst. pose proof (range_cr _ _ _ _ _ X R) as R0. destruct (range_line_same _ _ _ _ _ _ _ R0 R') as (-> & -> & _). destruct U; discriminate.
  - exfalso. inversion F as [|? x ? ? X F']; subst. eapply N'; [reflexivity|]. eapply range_cr; eauto.
  - exfalso. inversion F as [|? ? ? ? X F']; subst. pose proof (range_cr _ _ _ _ _ X R) as R0. destruct (range_line_same _ _ _ _ _ _ _ R0 R') as (<- & <- & _). destruct U'; discriminate.
  - inversion F as [|? ? ? ? X F']; subst. pose proof (range_cr _ _ _ _ _ X R) as R0. destruct (range_line_same _ _ _ _ _ _ _ R0 R') as (E1 & E2 & E3). injection E1 as E1 <-. injection E2 as E2 <-.
    destruct (counted_cr _ _ _ _ _ C _ F') as (es & rest1 & C1 & D1 & G1). destruct (counted_same _ _ _ _ _ C1 _ _ C') as [E4 <-].
    destruct (IH _ _ _ G1 P') as [I1 I2]. split; [|exact I2]. constructor; [|exact I1]. unfold crlf_hunk. cbn [fst snd].
    rewrite <- E1, <- E2, <- E3. repeat split; auto.
    + rewrite E1, E2. exact CT'.
    + eapply crlf_same_shows; eauto.
Qed.
