(** C73, C74: bytes and text. *)
From Verif Require PSave.
From Coq Require Import String Permutation ZifyBool ZifyNat ZifyN.
From Verif Require Import Base QtStr Diff Save Parser SpecHistory SpecPatch SpecParse SpecText SpecUnified Blend SpecBlend SpecWorkflow Codec SpecCodec PAnyInput PropsUnified PropsWorkflow.
Open Scope N_scope.

Ltac Zify.zify_post_hook ::= Z.to_euclidean_division_equations.

(** * C73 *)
Lemma decode_app cd a : forall s b, decode cd s (a ++ b) = (let '(s1, t1) := decode cd s a in let '(s2, t2) := decode cd s1 b in (s2, t1 ++ t2)).
Proof.
  induction a as [|x a IH]; intros s b; cbn [app decode].
  - destruct (decode cd s b). reflexivity.
  - destruct (cd_byte cd s x) as [s1 t1]. rewrite IH. destruct (decode cd s1 a) as [s2 t2]. destruct (decode cd s2 b) as [s3 t3]. now rewrite app_assoc.
Qed.
Lemma read_blocks_ok cd blocks : forall s, read_blocks cd s blocks = snd (decode cd s (concat blocks)).
Proof.
  induction blocks as [|b bs IH]; intros s; cbn [read_blocks concat]; [reflexivity|]. rewrite decode_app. destruct (decode cd s b) as [s1 t1]. rewrite IH.
  destruct (decode cd s1 (concat bs)). reflexivity.
Qed.
(** However a file is cut into blocks, its text is the same; a file that cannot be opened has no text. *)
Theorem C73_blocks_do_not_matter : forall cd blocks blocks', concat blocks = concat blocks' -> read_file cd (Some blocks) = read_file cd (Some blocks').
Proof. intros. cbn [read_file]. rewrite !read_blocks_ok. congruence. Qed.
Print Assumptions C73_blocks_do_not_matter.
(** The encoding that is used: the system's for the word default with any mixture of small and capital letters and for a name
    that is not known, the named one otherwise. *)
Definition is_the_word_default (name : str) : Prop := Forall2 (fun c l => c = l \/ c + 32 = l) name (lit "default").
Lemma is_default_ok name : is_default name = true <-> is_the_word_default name.
Proof.
  unfold is_default, is_the_word_default.
  assert (G : forall l, Forall (fun x => 97 <= x <= 122) l -> forall n : str, str_eqb (map lower n) l = true <-> Forall2 (fun c l => c = l \/ c + 32 = l) n l).
  { induction l as [|x l IH]; intros FA n.
    - destruct n; cbn; split; intros H; try discriminate; try constructor; inversion H.
    - inversion FA as [|? ? FX FL]; subst. destruct n as [|c n]; cbn; [split; intros H; [discriminate|inversion H]|]. rewrite andb_true_iff, (IH FL). split.
      + intros [E F]. constructor; [|exact F]. apply N.eqb_eq in E. unfold lower, chr in *. destruct ((65 <=? c) && (c <=? 90)) eqn:Q; lia.
      + intros H. inversion H as [|? ? ? ? E F]; subst. split; [|exact F]. apply N.eqb_eq. unfold lower, chr in *. destruct ((65 <=? c) && (c <=? 90)) eqn:Q; lia. }
  apply G. vm_compute (lit _). repeat (apply Forall_cons; [lia|]). apply Forall_nil.
Qed.
Theorem C73_encoding_used : forall system known name,
  (is_the_word_default name -> set_encoding system known name = system) /\
  (known name = None -> set_encoding system known name = system) /\
  (forall cd, ~ is_the_word_default name -> known name = Some cd -> set_encoding system known name = cd).
Proof.
  intros. unfold set_encoding. rewrite <- is_default_ok. split; [intros ->; reflexivity|]. split; [intros ->; now destruct (is_default name)|]. intros cd N ->.
  destruct (is_default name) eqn:E; [exfalso; apply N; first [exact E|reflexivity|now apply is_default_ok]|reflexivity].
Qed.
Print Assumptions C73_encoding_used.
Example C73_example : is_the_word_default (lit "DefAULT").
Proof. apply is_default_ok. reflexivity. Qed.

(** * UTF-8 *)
Lemma decode_code c u v s rest : scalar c -> utf8_of c u -> utf16_of c v -> fst s = [] ->
  decode utf8 s (u ++ rest) = (let '(s', t) := decode utf8 ([], true) rest in (s', give (snd s) v ++ t)).
Proof.
  intros SC U V F. assert (v = units c) as ->.
  { unfold units. inversion V; subst. - assert (c <? 65536 = true) as -> by lia. reflexivity.
    - assert (65536 + 1024 * x + y <? 65536 = false) as -> by lia. assert ((65536 + 1024 * x + y - 65536) / 1024 = x) as -> by lia. assert ((65536 + 1024 * x + y - 65536) mod 1024 = y) as -> by lia. reflexivity. }
  destruct s as [q d]. cbn [fst] in F. subst q. destruct U as [c H|x y H1 H2 H3|x y z H1 H2 H3 H4|w x y z H1 H2 H3 H4 H5]; cbn [app decode utf8 cd_byte snd].
  - unfold utf8_byte, utf8_first. cbn [fst snd]. unfold needs. assert (c <? 128 = true) as -> by lia. destruct (decode _ _ rest). reflexivity.
  - assert (N : needs (192 + x) = 2%nat) by (unfold needs; repeat match goal with |- context [?a <? ?b] => destruct (N.ltb_spec a b); try lia end).
    unfold utf8_byte at 1. cbn [fst snd]. unfold utf8_first. rewrite N. cbn [fst snd]. unfold utf8_byte at 1. cbn [fst snd app length]. rewrite N. cbn [Nat.eqb].
    assert (is_continuation (128 + y) = true) as -> by (unfold is_continuation; lia).
    assert (join [192 + x; 128 + y] = 64 * x + y) as -> by (cbn [join]; lia). unfold sound. assert (128 <=? 64 * x + y = true) as -> by lia. destruct (decode _ _ rest). reflexivity.
  - assert (N : needs (224 + x) = 3%nat) by (unfold needs; repeat match goal with |- context [?a <? ?b] => destruct (N.ltb_spec a b); try lia end).
    unfold utf8_byte at 1. cbn [fst snd]. unfold utf8_first. rewrite N. cbn [fst snd]. unfold utf8_byte at 1. cbn [fst snd app length]. rewrite N. cbn [Nat.eqb].
    assert (forall k, k < 64 -> is_continuation (128 + k) = true) as K by (intros; unfold is_continuation; lia). rewrite !K by assumption. cbn [fst snd].
    unfold utf8_byte at 1. cbn [fst snd app length]. rewrite N, K by assumption. cbn [Nat.eqb].
    assert (join [224 + x; 128 + y; 128 + z] = 4096 * x + 64 * y + z) as -> by (cbn [join]; lia). unfold sound, is_surrogate, scalar in *.
    assert ((2048 <=? 4096 * x + 64 * y + z) && negb ((55296 <=? 4096 * x + 64 * y + z) && (4096 * x + 64 * y + z <? 57344)) = true) as -> by lia. destruct (decode _ _ rest). reflexivity.
  - unfold scalar in SC. assert (w < 5) by lia.
    assert (N : needs (240 + w) = 4%nat) by (unfold needs; repeat match goal with |- context [?a <? ?b] => destruct (N.ltb_spec a b); try lia end).
    unfold utf8_byte at 1. cbn [fst snd]. unfold utf8_first. rewrite N. cbn [fst snd]. unfold utf8_byte at 1. cbn [fst snd app length]. rewrite N. cbn [Nat.eqb].
    assert (forall k, k < 64 -> is_continuation (128 + k) = true) as K by (intros; unfold is_continuation; lia). rewrite !K by assumption. cbn [fst snd].
    unfold utf8_byte at 1. cbn [fst snd app length]. rewrite N, K by assumption. cbn [Nat.eqb fst snd].
    unfold utf8_byte at 1. cbn [fst snd app length]. rewrite N, K by assumption. cbn [Nat.eqb].
    assert (join [240 + w; 128 + x; 128 + y; 128 + z] = 262144 * w + 4096 * x + 64 * y + z) as -> by (cbn [join]; lia). unfold sound.
    assert ((65536 <=? 262144 * w + 4096 * x + 64 * y + z) && (262144 * w + 4096 * x + 64 * y + z <? 1114112) = true) as -> by lia. destruct (decode _ _ rest). reflexivity.
Qed.
Lemma decode_text cs : forall us vs d, encoded utf8_of cs us -> encoded utf16_of cs vs -> d = true \/ no_mark cs -> exists d', decode utf8 ([], d) us = (([], d'), vs).
Proof.
  induction cs as [|c cs IH]; intros us vs d U V D.
  - inversion U; inversion V; subst. eexists. reflexivity.
  - inversion U as [|c1 cs1 u us1 SC H8 EU Q1 Q2]; subst us c1 cs1. inversion V as [|c1 cs1 v vs1 _ H16 EV Q1 Q2]; subst vs c1 cs1.
    erewrite decode_code; eauto. destruct (IH us1 vs1 true EU EV (or_introl eq_refl)) as (d' & ->).
    exists d'. cbn [snd]. f_equal. f_equal. unfold give. destruct d; [reflexivity|]. destruct D as [D|D]; [discriminate|]. inversion H16; subst; [|reflexivity].
    destruct (N.eqb_spec c 65279) as [->|]; [destruct (D cs eq_refl)|reflexivity].
Qed.
(** A file in UTF-8, without byte order mark, gives its characters, however it is cut into blocks. *)
Theorem C73_utf8_is_read : forall cs bytes text blocks, encoded utf8_of cs bytes -> encoded utf16_of cs text -> no_mark cs -> concat blocks = bytes ->
  read_file utf8 (Some blocks) = text.
Proof. intros cs bytes text blocks U V M <-. cbn [read_file]. rewrite read_blocks_ok. destruct (decode_text cs _ _ false U V (or_intror M)) as (d & E). cbn [cd_start utf8]. now rewrite E. Qed.
Print Assumptions C73_utf8_is_read.
(** With a byte order mark, the characters after it. *)
Theorem C73_mark_is_dropped : forall cs bytes text blocks, encoded utf8_of (65279 :: cs) bytes -> encoded utf16_of cs text -> concat blocks = bytes ->
  read_file utf8 (Some blocks) = text.
Proof.
  intros cs bytes text blocks U V <-. cbn [read_file]. rewrite read_blocks_ok. inversion U as [|c1 cs1 u us1 SC H8 EU Q1 Q2]; subst c1 cs1. cbn [utf8 cd_start]. erewrite decode_code; eauto; [|apply u16_1; lia].
  destruct (decode_text cs us1 text true EU V (or_introl eq_refl)) as (d & ->). reflexivity.
Qed.
Print Assumptions C73_mark_is_dropped.

(** * Any bytes *)
Definition conts (q : list N) : Prop := Forall (fun x => is_continuation x = true) q.
Ltac ifs := repeat match goal with |- context [?a <? ?b] => destruct (N.ltb_spec a b); try lia end.
Lemma character_bytes c u : scalar c -> utf8_of c u -> exists a q, u = a :: q /\ needs a = length u /\ conts q /\ sound (length u) (join u) = true.
Proof.
  assert (K : forall k, k < 64 -> is_continuation (128 + k) = true) by (intros; unfold is_continuation; lia).
  intros SC U. unfold scalar in SC. destruct U as [c H|x y H1 H2 H3|x y z H1 H2 H3 H4|w x y z H1 H2 H3 H4 H5]; eexists; eexists; (split; [reflexivity|]); cbn [length].
  - split; [unfold needs; ifs; reflexivity|]. split; [constructor|reflexivity].
  - split; [unfold needs; ifs; reflexivity|]. split; [repeat constructor; now apply K|]. cbn [sound join]. lia.
  - split; [unfold needs; ifs; reflexivity|]. split; [repeat constructor; now apply K|]. cbn [sound join]. unfold is_surrogate. lia.
  - split; [unfold needs; ifs; reflexivity|]. split; [repeat constructor; now apply K|]. cbn [sound join]. lia.
Qed.
Lemma bytes_character a q : needs a = length (a :: q) -> conts q -> sound (length (a :: q)) (join (a :: q)) = true -> exists c, scalar c /\ utf8_of c (a :: q).
Proof.
  intros NE C. unfold conts, is_continuation in C. unfold scalar. destruct q as [|b [|c [|d [|e q]]]]; cbn [length] in *; intros SO.
  - assert (a < 128) by (unfold needs in NE; destruct (N.ltb_spec a 128); [assumption|]; exfalso; revert NE; ifs). exists a. split; [lia|now constructor].
  - assert (194 <= a < 224) by (revert NE; unfold needs; ifs). inversion C as [|? ? Cb _]; subst. cbn [sound join] in SO.
    exists (64 * (a - 192) + (b - 128)). split; [lia|]. replace [a; b] with [192 + (a - 192); 128 + (b - 128)] by (repeat f_equal; lia). constructor; lia.
  - assert (224 <= a < 240) by (revert NE; unfold needs; ifs). inversion C as [|? ? Cb C']; subst. inversion C' as [|? ? Cc _]; subst. cbn [sound join] in SO. unfold is_surrogate in SO.
    exists (4096 * (a - 224) + 64 * (b - 128) + (c - 128)). split; [lia|]. replace [a; b; c] with [224 + (a - 224); 128 + (b - 128); 128 + (c - 128)] by (repeat f_equal; lia). constructor; lia.
  - assert (240 <= a < 245) by (revert NE; unfold needs; ifs). inversion C as [|? ? Cb C']; subst. inversion C' as [|? ? Cc C'']; subst. inversion C'' as [|? ? Cd _]; subst. cbn [sound join] in SO.
    exists (262144 * (a - 240) + 4096 * (b - 128) + 64 * (c - 128) + (d - 128)). split; [lia|].
    replace [a; b; c; d] with [240 + (a - 240); 128 + (b - 128); 128 + (c - 128); 128 + (d - 128)] by (repeat f_equal; lia). constructor; lia.
  - exfalso. revert NE. unfold needs. ifs; cbn; lia.
Qed.
Lemma needs_first b n : (2 <= n)%nat -> (needs b = n <-> first_of b n).
Proof. intros. unfold first_of, needs. split; ifs; intros; lia. Qed.
Lemma conts_range q : conts q <-> Forall (fun x => 128 <= x < 192) q.
Proof. unfold conts, is_continuation. split; intros H; eapply Forall_impl; try exact H; cbn beta; lia. Qed.
Lemma cont_no_first x : is_continuation x = true -> needs x = 0%nat.
Proof. unfold is_continuation, needs. intros. ifs. Qed.
(** The continuation bytes at the beginning, at most k of them. *)
Lemma run_of k : forall bytes, exists q rest, bytes = q ++ rest /\ conts q /\ (length q <= k)%nat /\
  (length q = k \/ rest = [] \/ exists x r, rest = x :: r /\ is_continuation x = false).
Proof.
  induction k as [|k IH]; intros bytes; [exists [], bytes; repeat split; [constructor|cbn; lia|now left]|].
  destruct bytes as [|x bytes]; [exists [], []; repeat split; [constructor|cbn; lia|auto]|]. destruct (is_continuation x) eqn:E.
  - destruct (IH bytes) as (q & rest & -> & C & L & R). exists (x :: q), rest. split; [reflexivity|]. split; [now constructor|]. cbn [length]. split; [lia|]. destruct R as [R|R]; [left; lia|auto].
  - exists [], (x :: bytes). repeat split; [constructor|cbn; lia|]. right. right. eauto.
Qed.
Lemma decode_conts q : forall rest, conts q -> decode utf8 ([], true) (q ++ rest) = (let '(s, t) := decode utf8 ([], true) rest in (s, repeat replacement (length q) ++ t)).
Proof.
  induction q as [|x q IH]; intros rest C; cbn [app repeat length]; [destruct (decode _ _ rest); reflexivity|]. inversion C as [|? ? Cx Cq]; subst. cbn [decode utf8 cd_byte].
  unfold utf8_byte. cbn [fst snd]. unfold utf8_first. rewrite (cont_no_first _ Cx). change (mk_codec _ _ utf8_byte) with utf8. rewrite (IH _ Cq). destruct (decode _ _ rest). reflexivity.
Qed.
Lemma decode_pending q : forall a p d rest, (length (a :: p) + length q < needs a)%nat -> conts q -> decode utf8 (a :: p, d) (q ++ rest) = decode utf8 (a :: p ++ q, d) rest.
Proof.
  induction q as [|x q IH]; intros a p d rest L C; [now rewrite app_nil_r|]. inversion C as [|? ? Cx Cq]; subst. cbn [app decode utf8 cd_byte]. unfold utf8_byte at 1. cbn [fst snd]. rewrite Cx.
  destruct (Nat.eqb_spec (length ((a :: p) ++ [x])) (needs a)) as [X|X]; [exfalso; rewrite app_length in X; cbn [length] in *; lia|]. change (mk_codec _ _ utf8_byte) with utf8.
  replace ((a :: p) ++ [x]) with (a :: (p ++ [x])) by reflexivity. rewrite (IH a (p ++ [x]) d rest); [|cbn [length] in *; rewrite app_length; cbn [length]; lia|exact Cq]. rewrite <- app_assoc. cbn [app].
  destruct (decode _ _ rest). reflexivity.
Qed.
Lemma decode_wrong b bytes d : ~ begins_character (b :: bytes) -> ~ stops_short (b :: bytes) ->
  decode utf8 ([], d) (b :: bytes) = (let '(s, t) := decode utf8 ([], true) bytes in (s, replacement :: t)).
Proof.
  intros NB NS. assert (LOW : needs b <> 1%nat).
  { intros X. apply NB. destruct (bytes_character b []) as (c & SC & U); [exact X|constructor|reflexivity|]. exists c, [b], bytes. auto. }
  cbn [decode utf8 cd_byte]. unfold utf8_byte at 1. cbn [fst snd]. unfold utf8_first. change (mk_codec _ _ utf8_byte) with utf8.
  destruct (needs b) as [|[|n]] eqn:NE; [destruct (decode _ _ bytes); reflexivity|congruence|].
  destruct (run_of (S n) bytes) as (q & rest & -> & C & L & R). rewrite decode_conts by exact C.
  assert (R' : length q = S n \/ (length q < S n)%nat /\ (rest = [] \/ exists x r, rest = x :: r /\ is_continuation x = false)) by (destruct (Nat.eq_dec (length q) (S n)); [now left|right; split; [lia|tauto]]).
  clear R. destruct R' as [R|[LT [->|(x & r & -> & NX)]]].
  - (* all its bytes, but they make no character *)
    assert (SO : sound (length (b :: q)) (join (b :: q)) = false).
    { destruct (sound _ _) eqn:SO; [|reflexivity]. exfalso. apply NB. destruct (bytes_character b q) as (c & SC & U); [cbn [length]; lia|exact C|exact SO|]. exists c, (b :: q), rest. auto. }
    destruct (exists_last (l := q)) as (q0 & x & Q); [intros ->; cbn in R; lia|]. subst q. rewrite app_length in *. cbn [length] in *. apply Forall_app in C as [C0 Cx]. inversion Cx as [|? ? CX _]; subst.
    rewrite <- app_assoc. rewrite decode_pending; [|cbn [length]; lia|exact C0]. cbn [app decode utf8 cd_byte]. unfold utf8_byte at 1. cbn [fst snd]. rewrite CX.
    replace (length ((b :: q0) ++ [x])) with (S (length (q0 ++ [x]))) by (cbn [app length]; reflexivity). rewrite app_length. cbn [length]. rewrite NE.
    replace (Nat.eqb (S (length q0 + 1)) (S (S n))) with true by (symmetry; apply Nat.eqb_eq; lia). change ((b :: q0) ++ [x]) with (b :: q0 ++ [x]).
    rewrite app_length in SO. cbn [length] in SO. rewrite SO. change (mk_codec _ _ utf8_byte) with utf8. destruct (decode _ _ rest). cbn [repeat app]. reflexivity.
  - exfalso. rewrite app_nil_r in NS. apply NS. exists b, (S (S n)), q. split; [reflexivity|]. split; [apply needs_first; [lia|exact NE]|]. split; [cbn [length]; lia|]. now apply conts_range.
  - rewrite decode_pending; [|cbn [length]; lia|exact C]. cbn [app decode utf8 cd_byte]. unfold utf8_byte at 1. cbn [fst snd]. rewrite NX.
    change (mk_codec _ _ utf8_byte) with utf8. unfold utf8_byte. cbn [fst snd]. destruct (utf8_first true x) as [s1 t1]. destruct (decode _ _ r). cbn [length repeat app]. now rewrite <- app_assoc.
Qed.
Lemma decode_short bytes d : stops_short bytes -> snd (decode utf8 ([], d) bytes) = [].
Proof.
  intros (b & n & p & -> & F & L & C). apply conts_range in C. cbn [length] in L. assert (2 <= n)%nat by (unfold first_of in F; lia). apply needs_first in F; [|lia].
  cbn [decode utf8 cd_byte]. unfold utf8_byte at 1. cbn [fst snd]. unfold utf8_first. rewrite F. destruct n as [|[|n]]; try lia. change (mk_codec _ _ utf8_byte) with utf8.
  rewrite <- (app_nil_r p). rewrite decode_pending; [|cbn [length]; lia|exact C]. reflexivity.
Qed.
Lemma decode_any bytes text : any_text bytes text -> snd (decode utf8 ([], true) bytes) = text.
Proof.
  induction 1 as [|bytes S|c u v bytes text SC U V A IH|b bytes text NB NS A IH]; [reflexivity|now apply decode_short|..].
  - erewrite decode_code; eauto. destruct (decode _ _ bytes). cbn [snd give] in *. now rewrite IH.
  - rewrite decode_wrong by assumption. destruct (decode _ _ bytes). cbn [snd] in *. now rewrite IH.
Qed.
(** Every file can be read, whatever its bytes; its text is told by [any_text], without the byte order mark if it begins with one. *)
Theorem C73_any_bytes :
  (forall bytes, exists text, any_text bytes text) /\
  (forall bytes text blocks, any_text bytes text -> concat blocks = bytes ->
     read_file utf8 (Some blocks) = match text with c :: text' => if c =? 65279 then text' else text | [] => [] end).
Proof.
  split.
  - intros bytes. assert (exists n, (length bytes <= n)%nat) as [n L] by (eexists; reflexivity). revert bytes L. induction n as [|n IH]; intros [|b bytes] L; cbn [length] in L; try lia; [exists []; constructor..|].
    assert (W : ~ begins_character (b :: bytes) -> ~ stops_short (b :: bytes) -> exists text, any_text (b :: bytes) text).
    { intros NB NS. destruct (IH bytes) as [t T]; [lia|]. exists (65533 :: t). now constructor. }
    assert (NOCH : forall q rest, b :: bytes = b :: q ++ rest -> (length q < needs b - 1)%nat -> (rest = [] \/ exists x r, rest = x :: r /\ is_continuation x = false) -> ~ begins_character (b :: bytes)).
    { intros q rest E LQ R (c & u & rest' & SC & U & E'). apply character_bytes in U as (a & p & -> & NA & CP & _); [|exact SC]. cbn [app] in E'. rewrite E' in E. clear E'. injection E as -> E.
      cbn [length] in NA. rewrite NA in LQ. clear -E LQ R CP. revert p rest' E LQ CP. induction q as [|y q IHq]; intros p rest' E LQ CP; cbn [app length] in *.
      - destruct p as [|z p]; cbn [length] in *; [lia|]. apply Forall_inv in CP. destruct R as [->|(x & r & -> & NX)]; [discriminate|]. cbn [app] in E. congruence.
      - destruct p as [|z p]; cbn [length] in *; [lia|]. apply Forall_inv_tail in CP. cbn [app] in E. injection E as _ E. eapply IHq; eauto. lia. }
    destruct (needs b) as [|[|k]] eqn:NE.
    + apply W; [|].
      * intros (c & u & rest & SC & U & E). apply character_bytes in U as (a & p & -> & NA & _); [|exact SC]. cbn [app] in E. injection E as <- _. cbn [length] in NA. lia.
      * intros (a & m & p & E & F & _). injection E as <- _. assert (2 <= m)%nat by (unfold first_of in F; lia). apply needs_first in F; lia.
    + destruct (bytes_character b []) as (c & SC & U); [exact NE|constructor|reflexivity|]. destruct (IH bytes) as [t T]; [lia|]. assert (V : exists v, utf16_of c v).
      { inversion U; subst. exists [b]. constructor. lia. } destruct V as [v V]. exists (v ++ t). exact (at_character c [b] v bytes t SC U V T).
    + destruct (run_of (S k) bytes) as (q & rest & Q & C & LQ & R).
      assert (R' : length q = S k \/ (length q < S k)%nat /\ (rest = [] \/ exists x r, rest = x :: r /\ is_continuation x = false)) by (destruct (Nat.eq_dec (length q) (S k)); [now left|right; split; [lia|tauto]]).
      clear R. destruct R' as [R|[LT R]].
      * assert (NS : ~ stops_short (b :: bytes)).
        { intros (a & m & p & E & F & LM & _). injection E as <- <-. assert (2 <= m)%nat by (unfold first_of in F; lia). apply needs_first in F; [|lia]. cbn [length] in LM. rewrite Q, app_length in LM. lia. }
        destruct (sound (length (b :: q)) (join (b :: q))) eqn:SO.
        -- destruct (bytes_character b q) as (c & SC & U); [cbn [length]; lia|exact C|exact SO|]. destruct (IH rest) as [t T]; [subst bytes; rewrite app_length in L; lia|].
           assert (V : utf16_of c (units c)).
           { unfold units. destruct (N.ltb_spec c 65536); [now constructor|]. replace c with (65536 + 1024 * ((c - 65536) / 1024) + (c - 65536) mod 1024) at 1 by lia. unfold scalar in SC. constructor; lia. }
           exists (units c ++ t). subst bytes. exact (at_character c (b :: q) _ rest t SC U V T).
        -- apply W; [|exact NS]. intros (c & u & rest' & SC & U & E). apply character_bytes in U as (a & p & -> & NA & CP & S'); [|exact SC]. cbn [app] in E. injection E as <- E. rewrite Q in E. cbn [length] in NA.
           apply PSave.app_same_length in E as [<- _]; [congruence|lia].
      * destruct R as [->|(x & r & -> & NX)].
        -- exists []. apply at_short. exists b, (S (S k)), q. rewrite app_nil_r in Q. subst bytes. split; [reflexivity|]. split; [apply needs_first; [lia|exact NE]|]. split; [cbn [length]; lia|]. now apply conts_range.
        -- apply W.
           ++ eapply (NOCH q (x :: r)); [now rewrite Q|lia|]. right. eauto.
           ++ intros (a & m & p & E & _ & _ & CP). injection E as _ E. subst p. rewrite Q in CP. apply conts_range in CP. apply Forall_app in CP as [_ CP]. inversion CP; subst. congruence.
  - intros bytes text blocks A <-. cbn [read_file]. rewrite read_blocks_ok. cbn [cd_start utf8]. change (mk_codec _ _ utf8_byte) with utf8.
    inversion A as [|bytes' S|c u v bytes' text' SC U V A'|b bytes' text' NB NS A']; subst; [reflexivity|now apply decode_short|..].
    + erewrite decode_code; eauto. apply decode_any in A'. destruct (decode _ _ bytes'). cbn [snd] in *. subst text'. inversion V; subst; cbn [give app].
      * destruct (N.eqb_spec c 65279); reflexivity.
      * destruct (N.eqb_spec (55296 + x) 65279); [lia|reflexivity].
    + rewrite decode_wrong by assumption. apply decode_any in A'. destruct (decode _ _ bytes'). cbn [snd] in *. subst text'. reflexivity.
Qed.
Print Assumptions C73_any_bytes.
(** A Latin-1 file taken for UTF-8: café, then a line feed, then à at the end. *)
Example C73_any_example : any_text [99; 97; 102; 233; 10; 195] [99; 97; 102; 65533; 10].
Proof.
  apply (at_character 99 [99] [99]); [unfold scalar; lia|constructor; lia|constructor; lia|]. apply (at_character 97 [97] [97]); [unfold scalar; lia|constructor; lia|constructor; lia|].
  apply (at_character 102 [102] [102]); [unfold scalar; lia|constructor; lia|constructor; lia|]. apply at_wrong.
  - intros (c & u & rest & SC & U & E). apply character_bytes in U as (a & q & -> & NA & CP & _); [|exact SC]. injection E as <- E. destruct q as [|x q]; [discriminate|]. injection E as <- _. inversion CP; subst. discriminate.
  - intros (b & n & p & E & _ & _ & C). injection E as <- <-. inversion C; subst. lia.
  - apply (at_character 10 [10] [10]); [unfold scalar; lia|constructor; lia|constructor; lia|]. apply at_short. exists 195, 2%nat, []. split; [reflexivity|]. split; [left; lia|]. split; [cbn; lia|constructor].
Qed.

(** * Writing *)
Lemma split_ok c : scalar c -> utf8_of c (split_code c).
Proof.
  unfold scalar, split_code. intros S. destruct (N.ltb_spec c 128); [now constructor|]. destruct (N.ltb_spec c 2048).
  - assert (c = 64 * (c / 64) + c mod 64) as E by lia. rewrite E at 1. constructor; lia.
  - destruct (N.ltb_spec c 65536).
    + assert (c = 4096 * (c / 4096) + 64 * (c / 64 mod 64) + c mod 64) as E by lia. rewrite E at 1. constructor; lia.
    + assert (c = 262144 * (c / 262144) + 4096 * (c / 4096 mod 64) + 64 * (c / 64 mod 64) + c mod 64) as E by lia. rewrite E at 1. constructor; lia.
Qed.
Lemma split_unique c u : utf8_of c u -> u = split_code c.
Proof.
  unfold split_code. intros U. destruct U as [c H|x y H1 H2 H3|x y z H1 H2 H3 H4|w x y z H1 H2 H3 H4 H5].
  - assert (c <? 128 = true) as -> by lia. reflexivity.
  - assert (64 * x + y <? 128 = false) as -> by lia. assert (64 * x + y <? 2048 = true) as -> by lia.
    assert ((64 * x + y) / 64 = x) as -> by lia. assert ((64 * x + y) mod 64 = y) as -> by lia. reflexivity.
  - set (c := 4096 * x + 64 * y + z). assert (c <? 128 = false) as -> by lia. assert (c <? 2048 = false) as -> by lia. assert (c <? 65536 = true) as -> by lia.
    assert (c / 4096 = x) as -> by lia. assert (c / 64 mod 64 = y) as -> by lia. assert (c mod 64 = z) as -> by lia. reflexivity.
  - set (c := 262144 * w + 4096 * x + 64 * y + z). assert (c <? 128 = false) as -> by lia. assert (c <? 2048 = false) as -> by lia. assert (c <? 65536 = false) as -> by lia.
    assert (c / 262144 = w) as -> by lia. assert (c / 4096 mod 64 = x) as -> by lia. assert (c / 64 mod 64 = y) as -> by lia. assert (c mod 64 = z) as -> by lia. reflexivity.
Qed.
Lemma write_code c v rest : scalar c -> utf16_of c v -> write_text (v ++ rest) = split_code c ++ write_text rest.
Proof.
  unfold scalar. intros S V. destruct V as [c H|x y H1 H2]; cbn [app write_text]; unfold is_surrogate.
  - assert ((55296 <=? c) && (c <? 57344) = false) as -> by lia. reflexivity.
  - assert ((55296 <=? 55296 + x) && (55296 + x <? 57344) = true) as -> by lia.
    assert ((55296 + x <? 56320) && ((56320 <=? 56320 + y) && (56320 + y <? 57344)) = true) as -> by lia.
    assert (65536 + (55296 + x - 55296) * 1024 + (56320 + y - 56320) = 65536 + 1024 * x + y) as -> by lia. reflexivity.
Qed.
Lemma write_ok cs text : encoded utf16_of cs text -> encoded utf8_of cs (write_text text).
Proof. induction 1 as [|c cs u us S U E IH]; [constructor|]. rewrite (write_code c) by assumption. constructor; [assumption|now apply split_ok|assumption]. Qed.
Lemma utf8_unique cs us us' : encoded utf8_of cs us -> encoded utf8_of cs us' -> us = us'.
Proof.
  intros U. revert us'. induction U as [|c cs u us S U E IH]; intros us' U'; inversion U' as [|c1 cs1 v vs _ V EV]; subst; [reflexivity|].
  rewrite (split_unique _ _ U), (split_unique _ _ V). f_equal. now apply IH.
Qed.
Lemma has_units cs us : encoded utf8_of cs us -> exists text, encoded utf16_of cs text.
Proof.
  induction 1 as [|c cs u us S U E (t & IH)]; [exists []; constructor|]. unfold scalar in S. destruct (N.ltb_spec c 65536).
  - exists ([c] ++ t). constructor; [assumption|now constructor|exact IH].
  - exists ([55296 + (c - 65536) / 1024; 56320 + (c - 65536) mod 1024] ++ t). constructor; [assumption| |exact IH].
    assert (c = 65536 + 1024 * ((c - 65536) / 1024) + (c - 65536) mod 1024) as E1 by lia. rewrite E1 at 1. constructor; lia.
Qed.

(** * C74 *)
(** What is saved is the text in UTF-8; read again as UTF-8, it is the text. *)
Theorem C74_saved_text_reads_back : forall cs text, encoded utf16_of cs text ->
  encoded utf8_of cs (write_text text) /\ (no_mark cs -> forall blocks, concat blocks = write_text text -> read_file utf8 (Some blocks) = text).
Proof. intros cs text E. pose proof (write_ok _ _ E) as W. split; [exact W|]. intros M blocks B. eapply C73_utf8_is_read; eauto. Qed.
Print Assumptions C74_saved_text_reads_back.
(** From the bytes of the file to the bytes that are saved: a file in UTF-8, however it is read; any diff of it; any history. The
    bytes that are saved are the UTF-8 of the file with the changes worked in that are not applied; if all are applied, they
    are the bytes of the file. *)
Theorem C74_bytes_to_bytes :
  forall sort d p cs bytes blocks A B, (forall l, Permutation (sort l) l) -> doc_ok d -> In p (ud_files d) ->
  encoded utf8_of cs bytes -> no_mark cs -> concat blocks = bytes ->
  lines_of_text (read_file utf8 (Some blocks)) A -> patches true 1%Z 1%Z A B (up_hunks p) ->
  exists o m, parse sort (split_lines (doc_text d)) = Ok o /\ In m (the_models (po_models o)) /\ patch_is p m /\
  forall ops1 s1 ops2 s2 e, abs_run (abs_init (all_changes (up_hunks p))) ops1 = Some s1 -> abs_run s1 ops2 = Some s2 ->
  save_succeeds e = true -> f_now s2 <> f_saved s2 ->
  exists m1 mb m2 out R,
    run m ops1 = Ok m1 /\ blend_file m1 (read_file utf8 (Some blocks)) = Ok mb /\ run mb ops2 = Ok m2 /\ save_destination e m2 = Ok out /\
    in_part 1%Z (f_now s2) A (up_hunks p) R /\ so_written out = Some (concat R) /\
    (forall cs', encoded utf16_of cs' (concat R) -> encoded utf8_of cs' (write_text (concat R))) /\
    ((forall f, In f (f_now s2) -> f = true) -> write_text (concat R) = bytes).
Proof.
  intros sort d p cs bytes blocks A B HP OK IP U M CB LT PA. destruct (has_units _ _ U) as (text & V). pose proof (C73_utf8_is_read _ _ _ _ U V M CB) as RF. rewrite RF in *.
  destruct (C55_parse_blend_edit_save sort d p text A B HP OK IP LT PA) as (o & m & E & _ & IM & PI & G). exists o, m. split; [exact E|]. split; [exact IM|]. split; [exact PI|].
  intros ops1 s1 ops2 s2 e A1 A2 SE NE. destruct (G ops1 s1 ops2 s2 e A1 A2) as (m1 & mb & m2 & out & R & E1 & E2 & E3 & E4 & IN & W & _ & _ & AL).
  exists m1, mb, m2, out, R. repeat (split; [assumption|]). split; [now apply W|]. split; [intros; now apply write_ok|]. intros Q. destruct (AL Q) as [_ ->]. eapply utf8_unique; [|exact U]. now apply write_ok.
Qed.
Print Assumptions C74_bytes_to_bytes.
(** Hypotheses: a file of characters of one, two, three and four bytes. *)
Example C74_example : exists text, encoded utf8_of [65; 233; 8364; 128512; 10] [65; 195; 169; 226; 130; 172; 240; 159; 152; 128; 10] /\
  encoded utf16_of [65; 233; 8364; 128512; 10] text /\ read_file utf8 (Some [[65; 195]; [169; 226; 130; 172; 240; 159; 152]; [128; 10]]) = text.
Proof.
  exists [65; 233; 8364; 55357; 56832; 10]. split; [|split; [|reflexivity]].
  - change [65; 195; 169; 226; 130; 172; 240; 159; 152; 128; 10] with (write_text [65; 233; 8364; 55357; 56832; 10]). apply write_ok.
    apply (en_cons _ 65 _ [65]); [unfold scalar; lia|constructor; lia|]. apply (en_cons _ 233 _ [233]); [unfold scalar; lia|constructor; lia|]. apply (en_cons _ 8364 _ [8364]); [unfold scalar; lia|constructor; lia|].
    apply (en_cons _ 128512 _ [55357; 56832]); [unfold scalar; lia|apply (u16_2 61 512); lia|]. apply (en_cons _ 10 _ [10]); [unfold scalar; lia|constructor; lia|]. constructor.
  - apply (en_cons _ 65 _ [65]); [unfold scalar; lia|constructor; lia|]. apply (en_cons _ 233 _ [233]); [unfold scalar; lia|constructor; lia|]. apply (en_cons _ 8364 _ [8364]); [unfold scalar; lia|constructor; lia|].
    apply (en_cons _ 128512 _ [55357; 56832]); [unfold scalar; lia|apply (u16_2 61 512); lia|]. apply (en_cons _ 10 _ [10]); [unfold scalar; lia|constructor; lia|]. constructor.
Qed.
(** Exactly: the bytes of a file come back when its text is written if, and only if, they are UTF-8 without byte order mark. *)
Lemma write_valid n : forall t : str, (length t <= n)%nat -> Forall (fun c => c < 65536) t -> exists cs, encoded utf8_of cs (write_text t).
Proof.
  assert (R : forall c l cs, scalar c -> encoded utf8_of cs l -> exists cs', encoded utf8_of cs' (split_code c ++ l)).
  { intros c l cs SC E. exists (c :: cs). constructor; [exact SC|now apply split_ok|exact E]. }
  assert (RS : scalar replacement) by (unfold scalar, replacement; lia).
  induction n as [|n IH]; intros [|c t] L F; cbn [length] in L; try lia; [exists []; constructor..|]. inversion F as [|? ? Fc Ft]; subst. cbn [write_text]. destruct (is_surrogate c) eqn:SU.
  - destruct t as [|d t]; [exists [replacement]; rewrite <- (app_nil_r (split_code replacement)); constructor; [exact RS|now apply split_ok|constructor]|].
    destruct ((c <? 56320) && ((56320 <=? d) && (d <? 57344))) eqn:PA.
    + inversion Ft as [|? ? Fd Ft']; subst. destruct (IH t) as [cs E]; [cbn [length] in L; lia|exact Ft'|]. unfold is_surrogate in SU. eapply R; [|exact E]. unfold scalar. lia.
    + destruct (IH (d :: t)) as [cs E]; [lia|exact Ft|]. eapply R; eauto.
  - destruct (IH t) as [cs E]; [lia|exact Ft|]. eapply R; [|exact E]. unfold is_surrogate in SU. unfold scalar. lia.
Qed.
Lemma any_text_units bytes text : any_text bytes text -> Forall (fun c => c < 65536) text.
Proof.
  induction 1 as [|bytes S|c u v bytes text SC U V A IH|b bytes text NB NS A IH]; [constructor..| |]; [|constructor; [lia|exact IH]]. apply Forall_app. split; [|exact IH].
  inversion V; subst; repeat constructor; lia.
Qed.
Theorem C74_bytes_kept_exactly :
  forall bytes blocks, concat blocks = bytes ->
  (write_text (read_file utf8 (Some blocks)) = bytes <-> exists cs, encoded utf8_of cs bytes /\ no_mark cs).
Proof.
  intros bytes blocks B. split.
  - intros W. destruct (proj1 C73_any_bytes bytes) as [text A]. pose proof (proj2 C73_any_bytes bytes text blocks A B) as RD. apply any_text_units in A.
    assert (F : Forall (fun c => c < 65536) (read_file utf8 (Some blocks))).
    { rewrite RD. destruct text as [|c text]; [constructor|]. inversion A; subst. destruct (c =? 65279); [assumption|now constructor]. }
    destruct (write_valid _ _ (le_n _) F) as [cs E]. rewrite W in E. exists cs. split; [exact E|]. intros cs' ->. 
    inversion E as [|c1 cs1 u us SC U EU Q1 Q2]; subst c1 cs1. destruct (has_units _ _ EU) as [t T]. assert (RD' : read_file utf8 (Some blocks) = t) by (eapply C73_mark_is_dropped; [exact E|exact T|exact B]).
    rewrite RD' in W. rewrite (utf8_unique _ _ _ (write_ok _ _ T) EU) in W. assert (length us = length (u ++ us)) as X by (rewrite Q2; now rewrite W at 1). rewrite app_length in X.
    destruct u as [|x u]; [inversion U|cbn [length] in X; lia].
  - intros (cs & U & M). destruct (has_units _ _ U) as [t T]. rewrite (C73_utf8_is_read _ _ _ _ U T M B). apply (utf8_unique cs); [now apply write_ok|exact U].
Qed.
Print Assumptions C74_bytes_kept_exactly.
(** False of the code for files in another encoding, with a byte order mark, or with bytes that are not UTF-8, and for a file that
    ends within a character. All differences are applied, so the text of the file is saved; its bytes are others. *)
Definition bytes_session (cd : codec) (file : list N) : res (list (option (list N))) :=
  do o <- parse (fun l => l) (map nl ["--- a	1"; "+++ b	2"; "@@ -2,2 +2,2 @@"; "-2"; "+x"; " 3"]%string);
  (fix each ms := match ms with
                  | [] => Ok []
                  | m :: ms' => do m <- blend_file m (read_file cd (Some [file])); do m <- run m [ApplyAll true];
                                do out <- save_destination good m; do r <- each ms'; Ok (option_map write_text (so_written out) :: r)
                  end) (the_models (po_models o)).
Definition ends : list N := [10; 50; 10; 51; 10].
Lemma bytes_session_ok : bytes_session utf8 ([195; 169] ++ ends) = Ok [Some ([195; 169] ++ ends)].
Proof. vm_compute. reflexivity. Qed.
Theorem C74_bytes_kept_refuted :
  bytes_session latin1 (233 :: ends) = Ok [Some ([195; 169] ++ ends)] /\
  bytes_session utf8 ([239; 187; 191; 49] ++ ends) = Ok [Some (49 :: ends)] /\
  bytes_session utf8 (233 :: ends) = Ok [Some ([239; 191; 189] ++ ends)] /\
  bytes_session utf8 (49 :: ends ++ [195]) = Ok [Some (49 :: ends)].
Proof. repeat split; vm_compute; reflexivity. Qed.
Print Assumptions C74_bytes_kept_refuted.
