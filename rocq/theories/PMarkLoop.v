From Coq Require Import ZifyBool ZifyNat ZifyN String.
From Verif Require Import Base QtStr Lev Diff LinesChanged SpecEdit SpecInline SpecPatch PLev PropsLev.
Local Open Scope Z_scope.

(** * Reading paired markers *)
Lemma paired_weaken lo lo' ms len : (lo' <= lo)%nat -> paired_from lo ms len -> paired_from lo' ms len.
Proof. destruct ms as [|[[] s] [|[[] e] ms]]; cbn; auto. intros H (A & B & C & D). split; [lia|]. auto. Qed.

Lemma plain_nil {A} k (l : list A) : plain_from [] k l = l.
Proof. revert k; induction l as [|x l IH]; intros k; cbn; [reflexivity|]. rewrite IH. reflexivity. Qed.
Lemma count_changed_nil {A} k (l : list A) : count_changed [] k l = 0%nat.
Proof. revert k; induction l as [|x l IH]; intros k; cbn; [reflexivity|]. apply IH. Qed.

Lemma changed_before s e ms k : (k < s)%nat -> changed (mk_marker MStart s :: mk_marker MEnd e :: ms) k = false.
Proof. intros H. unfold changed. cbn [find m_offset]. assert (Nat.ltb k s = true) as -> by lia. reflexivity. Qed.
Lemma changed_in s e ms k : (s <= k < e)%nat -> changed (mk_marker MStart s :: mk_marker MEnd e :: ms) k = true.
Proof.
  intros H. unfold changed. cbn [find m_offset]. assert (Nat.ltb k s = false) as -> by lia. assert (Nat.ltb k e = true) as -> by lia. reflexivity.
Qed.
Lemma changed_after s e ms k : (s <= k)%nat -> (e <= k)%nat -> changed (mk_marker MStart s :: mk_marker MEnd e :: ms) k = changed ms k.
Proof.
  intros H1 H2. unfold changed. cbn [find m_offset]. assert (Nat.ltb k s = false) as -> by lia. assert (Nat.ltb k e = false) as -> by lia. reflexivity.
Qed.

(** Skipping lines before the next marker. *)
Definition next_ok (ms : list marker) (k n : nat) : Prop :=
  match ms with [] => True | m :: _ => (k + n <= m_offset m)%nat end.
Lemma paired_raise ms k n len : paired_from k ms len -> next_ok ms k n -> paired_from (k + n) ms len.
Proof. destruct ms as [|[[] s] [|[[] e] ms]]; cbn; auto. intros (A & B & C & D) H. auto. Qed.
Lemma skip_plain {A} ms lo len : paired_from lo ms len -> forall n k (l : list A),
  next_ok ms k n -> (n <= length l)%nat ->
  plain_from ms k l = firstn n l ++ plain_from ms (k + n) (skipn n l) /\
  count_changed ms k l = count_changed ms (k + n) (skipn n l).
Proof.
  intros Hp. induction n as [|n IH]; intros k l Hn Hl.
  - cbn [firstn skipn]. rewrite Nat.add_0_r. auto.
  - destruct l as [|x l]; [cbn in Hl; lia|].
    assert (changed ms k = false) as Hc.
    { destruct ms as [|[[] s] [|[[] e] ms]]; cbn in Hp; try contradiction; [reflexivity|]. apply changed_before. cbn in Hn. lia. }
    cbn [plain_from count_changed firstn skipn]. rewrite Hc.
    destruct (IH (S k) l) as [E1 E2].
    + destruct ms; cbn in *; lia.
    + cbn in Hl. lia.
    + rewrite E1, E2. replace (S k + n)%nat with (k + S n)%nat by lia. auto.
Qed.
Lemma skip_changed {A} s e ms : forall n k (l : list A), (s <= k)%nat -> (k + n = e)%nat -> (n <= length l)%nat ->
  plain_from (mk_marker MStart s :: mk_marker MEnd e :: ms) k l = plain_from ms e (skipn n l) /\
  count_changed (mk_marker MStart s :: mk_marker MEnd e :: ms) k l = (n + count_changed ms e (skipn n l))%nat.
Proof.
  induction n as [|n IH]; intros k l Hs He Hl.
  - assert (k = e) as -> by lia. cbn [skipn]. clear Hl He.
    assert (forall k, (e <= k)%nat -> plain_from (mk_marker MStart s :: mk_marker MEnd e :: ms) k l = plain_from ms k l /\
       count_changed (mk_marker MStart s :: mk_marker MEnd e :: ms) k l = count_changed ms k l) as H.
    { induction l as [|x l IH]; intros k Hk; [auto|]. cbn [plain_from count_changed]. rewrite changed_after by lia.
      destruct (IH (S k)) as [-> ->]; [lia|]. auto. }
    destruct (H e) as [-> ->]; [lia|]. auto.
  - destruct l as [|x l]; [cbn in Hl; lia|]. cbn [plain_from count_changed skipn]. rewrite changed_in by lia.
    destruct (IH (S k) l) as [-> ->]; cbn in Hl; try lia. split; [reflexivity|lia].
Qed.

(** * Copying lines *)
Lemma append_ok (pa l : list str) n : (n <= length l)%nat -> append_lines (pa ++ l) (count pa) n = Ok (firstn n l).
Proof.
  revert pa l; induction n as [|n IH]; intros pa l Hn; [reflexivity|].
  destruct l as [|x l]; [cbn in Hn; lia|]. cbn [append_lines firstn].
  unfold at_, count. assert (Z.ltb (Z.of_nat (length pa)) 0 = false) as -> by lia.
  rewrite Nat2Z.id, nth_error_app2, Nat.sub_diag by lia. cbn [nth_error bind].
  specialize (IH (pa ++ [x]) l). rewrite <- app_assoc in IH. cbn [app] in IH.
  replace (Z.of_nat (length pa) + 1) with (count (pa ++ [x])) by (unfold count; rewrite app_length; cbn [length]; lia).
  rewrite IH by (cbn in Hn; lia). reflexivity.
Qed.

(** * One side of one turn of the loop *)
Definition take_side (lines : list str) (ms : list marker) (next cur : Z) : res (list str * list marker * Z) :=
  if Z.eqb next cur then process_start_marker lines ms cur else Ok ([], ms, cur).
Lemma side_ok pa l ms T : let len := length (pa ++ l) in
  paired_from (length pa) ms len -> count (pa ++ l) < T ->
  exists taken rest ms', take_side (pa ++ l) ms (marker_offset ms T) (count pa) = Ok (taken, ms', count (pa ++ taken)) /\
    l = taken ++ rest /\
    plain_from ms (length pa) l = plain_from ms' (length (pa ++ taken)) rest /\
    count_changed ms (length pa) l = (length taken + count_changed ms' (length (pa ++ taken)) rest)%nat /\
    paired_from (length (pa ++ taken)) ms' len /\
    (length ms' <= length ms)%nat /\
    (marker_offset ms T = count pa -> taken <> [] /\ (length ms' < length ms)%nat) /\
    (marker_offset ms T <> count pa -> taken = [] /\ ms' = ms).
Proof.
  intros len Hp HT. unfold take_side.
  destruct (Z.eqb_spec (marker_offset ms T) (count pa)) as [E|E].
  - destruct ms as [|[[] s] [|[[] e] ms]]; cbn in Hp; try contradiction.
    { cbn in E. unfold count in *. rewrite app_length in HT. lia. }
    cbn [marker_offset m_offset] in E. unfold count in E.
    destruct Hp as (H1 & H2 & H3 & H4). unfold len in *. rewrite app_length in *.
    cbn [process_start_marker].
    replace (Z.to_nat (Z.of_nat e - count pa)) with (e - length pa)%nat by (unfold count; lia).
    rewrite append_ok by lia. cbn [bind].
    exists (firstn (e - length pa) l), (skipn (e - length pa) l), ms.
    assert (length (pa ++ firstn (e - length pa) l) = e) as HL by (rewrite app_length, firstn_length; lia).
    unfold count. rewrite HL. split; [reflexivity|]. split; [symmetry; apply firstn_skipn|].
    destruct (skip_changed s e ms (e - length pa) (length pa) l) as [P1 P2]; try lia.
    rewrite P1, P2. split; [reflexivity|]. split; [rewrite firstn_length; lia|].
    split; [eapply paired_weaken; [|exact H4]; lia|]. split; [cbn; lia|]. split.
    + intros _. split; [|cbn; lia]. intros Hnil. apply (f_equal (@length str)) in Hnil. rewrite firstn_length in Hnil. cbn in Hnil. lia.
    + intros Hx. exfalso. apply Hx. cbn. lia.
  - exists [], l, ms. rewrite app_nil_r. split; [reflexivity|]. split; [reflexivity|]. split; [reflexivity|]. split; [reflexivity|].
    split; [exact Hp|]. split; [lia|]. split; [congruence|auto].
Qed.

(** * Building the new difference *)
Lemma lines_new l : lines_of (map new_ds l) = l.
Proof. induction l as [|x l IH]; cbn; [reflexivity|]. f_equal. exact IH. Qed.
Lemma lines_same l l' : Forall2 same_text l l' -> lines_of l' = lines_of l.
Proof.
  induction 1 as [|x y l l' [ms ->] _ IH]; [reflexivity|]. cbn. f_equal. exact IH.
Qed.
Lemma lines_length l : length (lines_of l) = length l.
Proof. apply map_length. Qed.

Lemma built_ok s t ls ld : ls <> [] \/ ld <> [] -> Forall short ls -> Forall short ld ->
  exists d, (do d <- compute_diff_stats (set_lines (map new_ds ls) (map new_ds ld) (new_diff s t Unchanged));
             Ok (set_track (d_dst (apply_quietly true d)) (apply_quietly true d))) = Ok d /\
    d_src d = s /\ d_track d = t /\ lines_of (d_slines d) = ls /\ lines_of (d_dlines d) = ld /\ new_number d /\
    d_connected d = false.
Proof.
  intros Hne Hs Hd. unfold compute_diff_stats.
  set (d0 := set_lines (map new_ds ls) (map new_ds ld) (new_diff s t Unchanged)).
  set (d1 := if (Z.ltb 0 (slc d0) && Z.ltb 0 (dlc d0))%bool then set_type Change d0
             else if Z.ltb 0 (slc d0) then set_type Delete d0
             else if Z.ltb 0 (dlc d0) then set_type Insert d0 else d0).
  assert (d_slines d1 = map new_ds ls /\ d_dlines d1 = map new_ds ld /\ d_src d1 = s /\ d_dst d1 = t /\
          d_applied d1 = false /\ d_connected d1 = false /\ d_unsaved d1 = false /\ proper d1) as (E1 & E2 & E3 & E4 & E5 & E6 & E7 & E8).
  { unfold d1, slc, dlc. cbn [d0 set_lines d_slines d_dlines new_diff]. rewrite !map_length.
    destruct ls as [|x ls], ld as [|y ld]; [destruct Hne; congruence| | |];
      cbn; repeat (split; [reflexivity|]); unfold proper; cbn; try split; congruence. }
  destruct (C07_C08_inline_markers d1) as (sl & dl & E & F1 & F2 & _ & _).
  { rewrite E1. intros x Hx. apply in_map_iff in Hx as (y & <- & _). reflexivity. }
  { rewrite E2. intros x Hx. apply in_map_iff in Hx as (y & <- & _). reflexivity. }
  { rewrite E1, E2. intros i a b Ha Hb. rewrite nth_error_map in Ha, Hb.
    destruct (nth_error ls i) as [la|] eqn:Ea; [|discriminate]. destruct (nth_error ld i) as [lb|] eqn:Eb; [|discriminate].
    injection Ha as <-. injection Hb as <-. unfold no_wrap, area. cbn [new_ds ds_string].
    rewrite Forall_forall in Hs, Hd. specialize (Hs la (nth_error_In _ _ Ea)). specialize (Hd lb (nth_error_In _ _ Eb)).
    unfold short, count in *. assert ((N.of_nat (length la + 1) <= 65535)%N) by lia. assert ((N.of_nat (length lb + 1) <= 65535)%N) by lia.
    nia. }
  rewrite E. cbn [bind]. eexists. split; [reflexivity|].
  assert (apply_quietly true (set_lines sl dl d1) = mk_diff (d_type d1) s t (d_track d1) sl dl true (d_conflicts d1) true false) as ->.
  { unfold apply_quietly, set_lines; cbn. rewrite E3, E4, E5, E6, E7. reflexivity. }
  cbn. apply lines_same in F1, F2. rewrite E1, lines_new in F1. rewrite E2, lines_new in F2.
  split; [reflexivity|]. split; [reflexivity|]. split; [exact F1|]. split; [exact F2|]. split; [|reflexivity].
  unfold new_number; cbn. split; [reflexivity|]. split; [reflexivity|].
  unfold proper in *. cbn.
  assert (forall l l' : list dstr, lines_of l = lines_of l' -> (l = [] <-> l' = [])) as Hnil.
  { intros [|x l] [|y l'] H; cbn in H; try discriminate; split; congruence. }
  rewrite E1, E2 in E8.
  assert (sl = [] <-> map new_ds ls = []) as N1 by (apply Hnil; rewrite F1, lines_new; reflexivity).
  assert (dl = [] <-> map new_ds ld = []) as N2 by (apply Hnil; rewrite F2, lines_new; reflexivity).
  destruct (d_type d1); cbn [set_track d_type d_slines d_dlines]; tauto.
Qed.

(** * The loop *)
Definition size_of (d : difference) : Z := count (d_slines d) + count (d_dlines d).
Lemma count_app {A} (l l' : list A) : count (l ++ l') = count l + count l'.
Proof. unfold count. rewrite app_length. lia. Qed.
Lemma count_nil {A} : count (@nil A) = 0. Proof. reflexivity. Qed.
Lemma count_lines l : count (lines_of l) = count l.
Proof. unfold count. rewrite lines_length. reflexivity. Qed.

Lemma short_app l l' : Forall short (l ++ l') -> Forall short l /\ Forall short l'.
Proof. apply Forall_app. Qed.

Lemma loop_ok sl dl T : forall fuel m1 m2 pa a pb b,
  T = count (pa ++ a) + count (pb ++ b) + 1 ->
  paired_from (length pa) m1 (length (pa ++ a)) -> paired_from (length pb) m2 (length (pb ++ b)) ->
  plain_from m1 (length pa) a = plain_from m2 (length pb) b ->
  (length m1 + length m2 <= fuel)%nat -> Forall short a -> Forall short b ->
  exists ds, marker_loop fuel (pa ++ a) (pb ++ b) sl dl T m1 m2 (count pa) (count pb) = Ok ds /\
    describes (sl + count pa) (dl + count pb) a b ds /\ Forall new_number ds /\ Forall (fun d => d_connected d = false) ds /\
    total size_of ds = Z.of_nat (count_changed m1 (length pa) a + count_changed m2 (length pb) b).
Proof.
  induction fuel as [|fuel IH]; intros m1 m2 pa a pb b HT P1 P2 Hpl Hf Sa Sb.
  { destruct m1, m2; cbn in Hf; try lia. exists []. rewrite !plain_nil in Hpl. subst b. rewrite !count_changed_nil.
    split; [reflexivity|]. split; [constructor|]. auto. }
  destruct (match m1, m2 with [], [] => true | _, _ => false end) eqn:Em.
  { destruct m1, m2; try discriminate. exists []. rewrite !plain_nil in Hpl. subst b. rewrite !count_changed_nil.
    split; [reflexivity|]. split; [constructor|]. auto. }
  (* the number of lines to skip *)
  pose proof (count_app pa a) as CA. pose proof (count_app pb b) as CB.
  assert (exists n : nat, Z.min (marker_offset m2 T - count pb) (marker_offset m1 T - count pa) = Z.of_nat n /\
            (n <= length a)%nat /\ (n <= length b)%nat /\ next_ok m1 (length pa) n /\ next_ok m2 (length pb) n /\
            (marker_offset m1 T = count pa + Z.of_nat n \/ marker_offset m2 T = count pb + Z.of_nat n)) as (n & En & Na & Nb & X1 & X2 & Hone).
  { assert (forall ms (k len : nat), paired_from k ms len -> match ms with [] => True | m :: _ => (k <= m_offset m < len)%nat end) as Hstart.
    { intros [|[[] s] [|[[] e] ms]] k len H; cbn in *; try contradiction; auto; lia. }
    pose proof (Hstart _ _ _ P1) as H1. pose proof (Hstart _ _ _ P2) as H2. clear Hstart.
    rewrite app_length in H1, H2. unfold count in *.
    destruct m1 as [|k1 m1], m2 as [|k2 m2]; try discriminate; cbn [marker_offset next_ok] in *.
    - exists (m_offset k2 - length pb)%nat.
      assert (m_offset k2 - length pb <= length a)%nat.
      { rewrite plain_nil in Hpl.
        destruct (skip_plain (k2 :: m2) _ _ P2 (m_offset k2 - length pb) (length pb) b) as [E _]; [cbn; lia|lia|].
        rewrite E in Hpl. rewrite Hpl, app_length, firstn_length. lia. }
      repeat split; lia.
    - exists (m_offset k1 - length pa)%nat.
      assert (m_offset k1 - length pa <= length b)%nat.
      { rewrite plain_nil in Hpl.
        destruct (skip_plain (k1 :: m1) _ _ P1 (m_offset k1 - length pa) (length pa) a) as [E _]; [cbn; lia|lia|].
        rewrite E in Hpl. rewrite <- Hpl, app_length, firstn_length. lia. }
      repeat split; lia.
    - exists (Nat.min (m_offset k2 - length pb) (m_offset k1 - length pa)). repeat split; lia. }
  (* the common lines *)
  destruct (skip_plain m1 _ _ P1 n (length pa) a X1 Na) as [Pl1 Ct1].
  destruct (skip_plain m2 _ _ P2 n (length pb) b X2 Nb) as [Pl2 Ct2].
  rewrite Pl1, Pl2 in Hpl.
  assert (firstn n a = firstn n b) as Eg.
  { apply (f_equal (firstn n)) in Hpl. rewrite !firstn_app in Hpl. rewrite !firstn_length in Hpl.
    replace (n - Nat.min n (length a))%nat with O in Hpl by lia. replace (n - Nat.min n (length b))%nat with O in Hpl by lia.
    cbn [firstn] in Hpl. rewrite !app_nil_r, !firstn_firstn, !Nat.min_id in Hpl. exact Hpl. }
  rewrite <- Eg in Hpl. apply app_inv_head in Hpl.
  set (g := firstn n a) in *. set (a' := skipn n a) in *. set (b' := skipn n b) in *.
  assert (a = g ++ a') as Ea by (symmetry; apply firstn_skipn). assert (b = g ++ b') as Eb by (rewrite Eg; symmetry; apply firstn_skipn).
  assert (length g = n) as Lg by (unfold g; rewrite firstn_length; lia).
  assert (count g = Z.of_nat n) as Cg by (unfold count; rewrite Lg; reflexivity).
  rewrite Ct1, Ct2. clear Ct1 Ct2 Pl1 Pl2. clearbody g a' b'. subst a b.
  (* one turn *)
  rewrite !app_assoc in *.
  assert (paired_from (length (pa ++ g)) m1 (length ((pa ++ g) ++ a'))) as Q1.
  { rewrite (app_length pa g), Lg. apply paired_raise; assumption. }
  assert (paired_from (length (pb ++ g)) m2 (length ((pb ++ g) ++ b'))) as Q2.
  { rewrite (app_length pb g), Lg. apply paired_raise; assumption. }
  destruct (side_ok (pa ++ g) a' m1 T) as (ta & ra & m1' & S1 & E1 & PP1 & CC1 & PQ1 & LL1 & HH1 & HN1); [exact Q1|unfold count in *; lia|].
  destruct (side_ok (pb ++ g) b' m2 T) as (tb & rb & m2' & S2 & E2 & PP2 & CC2 & PQ2 & LL2 & HH2 & HN2); [exact Q2|unfold count in *; lia|].
  subst a' b'.
  rewrite !app_length, !Lg in PP1, PP2, CC1, CC2. rewrite PP1, PP2 in Hpl. rewrite CC1, CC2.
  assert ((ta <> [] /\ (length m1' < length m1)%nat) \/ (tb <> [] /\ (length m2' < length m2)%nat)) as Hprog.
  { destruct Hone as [Ho|Ho]; [left; apply HH1|right; apply HH2]; rewrite count_app, Cg; exact Ho. }
  apply short_app in Sa as [_ Sa]. apply short_app in Sb as [_ Sb].
  apply short_app in Sa as [Sta Sra]. apply short_app in Sb as [Stb Srb].
  destruct (built_ok (sl + (count pa + Z.of_nat n)) (dl + (count pb + Z.of_nat n)) ta tb) as (d & Ed & D1 & D2 & D3 & D4 & D5 & D6).
  { destruct Hprog as [[H _]|[H _]]; auto. } { exact Sta. } { exact Stb. }
  destruct (IH m1' m2' ((pa ++ g) ++ ta) ra ((pb ++ g) ++ tb) rb) as (ds & EL & Hdesc & Hnew & Hcon & Htot).
  { rewrite <- !(app_assoc (pa ++ g)), <- !(app_assoc (pb ++ g)). exact HT. }
  { rewrite <- (app_assoc (pa ++ g)). exact PQ1. }
  { rewrite <- (app_assoc (pb ++ g)). exact PQ2. }
  { rewrite !app_length, !Lg. exact Hpl. }
  { destruct Hprog as [[_ H]|[_ H]]; lia. }
  { exact Sra. } { exact Srb. }
  rewrite <- !(app_assoc (pa ++ g)), <- !(app_assoc (pb ++ g)) in EL.
  exists (d :: ds).
  assert (marker_loop (S fuel) ((pa ++ g) ++ ta ++ ra) ((pb ++ g) ++ tb ++ rb) sl dl T m1 m2 (count pa) (count pb) = Ok (d :: ds)) as Erun.
  { cbn [marker_loop]. rewrite En. rewrite !count_app, Cg in S1, S2.
    fold (take_side ((pa ++ g) ++ ta ++ ra) m1 (marker_offset m1 T) (count pa + Z.of_nat n)).
    fold (take_side ((pb ++ g) ++ tb ++ rb) m2 (marker_offset m2 T) (count pb + Z.of_nat n)).
    rewrite S1, S2. cbn [bind].
    destruct (compute_diff_stats _) as [d0| |] eqn:E0; cbn [bind] in Ed; try discriminate. injection Ed as Ed. cbn [bind].
    rewrite !count_app, Cg in EL. rewrite EL. cbn [bind]. rewrite Ed.
    destruct m1, m2; try discriminate; reflexivity. }
  split; [exact Erun|]. split.
  { rewrite <- D3, <- D4.
    assert (shown d = lines_of (d_dlines d)) as Hsh by (unfold shown; destruct D5 as (-> & _); reflexivity).
    rewrite <- Hsh. constructor.
    - rewrite D1, Cg. lia.
    - rewrite D2, Cg. lia.
    - rewrite Hsh, count_lines. 
      replace (sl + count pa + count g + count (d_slines d)) with (sl + count ((pa ++ g) ++ ta)).
      2: { rewrite !count_app. rewrite <- D3, count_lines. lia. }
      replace (dl + count pb + count g + count (d_dlines d)) with (dl + count ((pb ++ g) ++ tb)).
      2: { rewrite !count_app. rewrite <- D4, count_lines. lia. }
      exact Hdesc. }
  split; [constructor; assumption|]. split; [constructor; assumption|].
  cbn [total]. rewrite Htot. unfold size_of. rewrite <- (count_lines (d_slines d)), <- (count_lines (d_dlines d)), D3, D4.
  rewrite !app_length, !Lg. unfold count. lia.
Qed.
