(** C77: line numbers in ints. *)
From Coq Require Import String.
From Verif Require Import Base QtStr Lev Diff Regex Patterns Parser Ints SpecInts SpecEdit SpecInline SpecPatch SpecParse
  Save SpecHistory PHistory PropsHistory PDefined PropsParse PInts.
Local Open Scope Z_scope.

(** * Refuted as stated *)
(** A unified hunk whose numbers are the greatest int; a unified hunk of an insertion after that line (the
    parser adds one to the number before a side without lines); a context hunk. *)
Definition overflowing_inputs : list (list string) :=
  [["--- a	x"; "+++ b	y"; "@@ -2147483647 +2147483647 @@"; "-old"; "+new"];
   ["--- a	x"; "+++ b	y"; "@@ -2147483647,0 +5 @@"; "+new"];
   ["*** a	x"; "--- b	y"; "***************"; "*** 2147483646,2147483647 ****"; "! o"; "! p"; "--- 2147483646,2147483647 ----"; "! n"; "! m"]]%string.
(** What an int holds: 32 bits with a sign; a result outside of that is undefined. *)
Theorem C77_what_an_int_is z :
  (- 2 ^ 31 <= z < 2 ^ 31 -> int_of z = Ok z) /\ (z < - 2 ^ 31 \/ 2 ^ 31 <= z -> exists w, int_of z = UB w).
Proof.
  unfold int_of, in_int, INT_MAX. change (2 ^ 31) with 2147483648. split; intros H.
  - destruct (Z.leb_spec (- (2147483647) - 1) z); [|lia]. destruct (Z.leb_spec z 2147483647); [reflexivity|lia].
  - destruct (Z.leb_spec (- (2147483647) - 1) z), (Z.leb_spec z 2147483647); cbn; try lia; eauto.
Qed.
Print Assumptions C77_what_an_int_is.
(** On each of them the parser overflows an int; without the limits of int it would read one model. *)
Theorem C77_parse_overflow_refuted :
  Forall (fun l => (exists why, parse_int (fun m => m) (crash_lines l) = UB why) /\
                   (exists o m, parse (fun m => m) (crash_lines l) = Ok o /\ po_models o = Some [m])) overflowing_inputs.
Proof.
  repeat (apply Forall_cons || apply Forall_nil); (split; [eexists; vm_compute; reflexivity|]);
    match goal with |- exists o m, ?p = Ok o /\ _ =>
      assert (X : match p with Ok o => match po_models o with Some [m] => True | _ => False end | _ => False end) by (vm_compute; exact I);
      destruct p as [o| |]; [|destruct X|destruct X]; exists o; destruct (po_models o) as [[|m [|]]|]; try destruct X;
      exists m; split; reflexivity end.
Qed.
Print Assumptions C77_parse_overflow_refuted.

(** * What holds *)
(** For every text whose header numbers leave room for its lines, the parser with ints does exactly what
    the parser with unbounded numbers does (so that every theorem about parsing is one about ints). *)
Theorem C77_parse_no_overflow_partial sort text : modest text -> parse_int sort text = parse sort text.
Proof. apply fit_parse. Qed.
Print Assumptions C77_parse_no_overflow_partial.
(** For every text at all: the same, or an overflow; what is read without overflow is right. *)
Theorem C77_parse_overflow_or_right sort text :
  parse_int sort text = parse sort text \/ parse_int sort text = UB "signed integer overflow".
Proof. apply so_parse. Qed.
Print Assumptions C77_parse_overflow_or_right.
(** With C27: parsing in ints is defined on every safe text with modest numbers. *)
Theorem C77_parse_defined sort text out : folded text out -> safe out -> modest text ->
  exists o, parse_int sort text = Ok o.
Proof. intros F S M. rewrite fit_parse by exact M. now apply (C27_parse_defined_on_safe_input_partial sort text out). Qed.
Print Assumptions C77_parse_defined.

(** * Tracking numbers *)
Definition all_lines (ds : list difference) : Z := fold_right (fun d n => slc d + dlc d + n) 0 ds.
Lemma counts_nonneg d : 0 <= slc d /\ 0 <= dlc d.
Proof. unfold slc, dlc. lia. Qed.
Lemma all_lines_nonneg ds : 0 <= all_lines ds.
Proof. induction ds as [|d ds IH]; cbn [all_lines fold_right]; [lia|]. fold (all_lines ds). pose proof (counts_nonneg d). lia. Qed.
Lemma gained_bound k : forall ds fs d, nth_error ds k = Some d ->
  slc d + dlc d - all_lines ds <= gained ds fs k <= all_lines ds - (slc d + dlc d).
Proof.
  induction k as [|k IH]; intros [|d0 ds] fs d H; try discriminate; cbn [nth_error] in H.
  - injection H as ->. cbn [gained all_lines fold_right]. fold (all_lines ds). pose proof (all_lines_nonneg ds). lia.
  - destruct fs as [|f fs]; cbn [gained all_lines fold_right]; fold (all_lines ds); pose proof (counts_nonneg d0); pose proof (counts_nonneg d).
    + specialize (IH ds [] d H). destruct k; destruct ds; cbn [gained] in IH; try discriminate; lia.
    + specialize (IH ds fs d H). destruct f; lia.
Qed.
(** After every history of applying, unapplying and saving, the tracking numbers and the ends of the
    differences are ints, provided the source numbers leave room for the lines of the differences. *)
Theorem C77_tracking_in_range m ds ops s :
  fresh m ds -> abs_run (abs_init (length ds)) ops = Some s ->
  (forall d, In d ds -> 0 <= d_src d /\ d_src d + all_lines ds <= greatest) ->
  exists m' ds', run m ops = Ok m' /\ listed m' = Ok ds' /\
    forall d', In d' ds' -> - greatest <= d_track d' <= greatest /\ - greatest <= d_track d' + dlc d' <= greatest.
Proof.
  intros F R B. destruct (C28_tracking_after_any_history m ds ops s F R) as (m' & ds' & H1 & H2 & _ & L & L2 & H).
  exists m', ds'. split; [exact H1|]. split; [exact H2|]. intros d' I. apply In_nth_error in I as [k K].
  assert (KL : (k < length ds')%nat) by (apply nth_error_Some; congruence).
  destruct (nth_error ds k) as [d|] eqn:E; [|apply nth_error_None in E; lia].
  destruct (nth_error (f_now s) k) as [f|] eqn:E2; [|apply nth_error_None in E2; lia].
  destruct (H k d f E E2) as (d2 & K2 & T & _ & _ & _ & _ & S1 & S2 & _). rewrite K in K2. injection K2 as <-.
  pose proof (gained_bound k ds (f_now s) d E) as G. pose proof (counts_nonneg d) as C. pose proof (nth_error_In _ _ E) as I.
  specialize (B d I). pose proof (all_lines_nonneg ds) as A. assert (D : dlc d' = dlc d) by (unfold dlc; now rewrite S2).
  rewrite T, D. lia.
Qed.
Print Assumptions C77_tracking_in_range.

(** * A simple sufficient condition, and examples *)
(** No line has more than [k] digits in a row. *)
Fixpoint runs_le (k cur : nat) (l : str) : bool :=
  match l with
  | [] => true
  | c :: l' => if is_digit c then (Nat.ltb cur k && runs_le k (S cur) l')%bool else runs_le k 0 l'
  end.
Lemma runs_inside k : forall u cur w, runs_le k cur (u ++ w) = true -> exists cur', runs_le k cur' w = true.
Proof.
  induction u as [|c u IH]; intros cur w H; [eauto|]. cbn [app runs_le] in H.
  destruct (is_digit c); [apply andb_true_iff in H as [_ H]|]; eauto.
Qed.
Lemma runs_length k : forall a cur v, forallb is_digit a = true -> runs_le k cur (a ++ v) = true -> (length a <= k)%nat.
Proof.
  assert (G : forall a cur v, forallb is_digit a = true -> runs_le k cur (a ++ v) = true -> a = [] \/ (cur + length a <= k)%nat).
  { induction a as [|c a IH]; intros cur v D H; [now left|]. right. cbn [forallb] in D. apply andb_true_iff in D as [D1 D2].
    cbn [app runs_le] in H. rewrite D1 in H. apply andb_true_iff in H as [H1 H2]. apply Nat.ltb_lt in H1. cbn [length].
    destruct (IH _ _ D2 H2) as [->|L]; cbn [length]; lia. }
  intros a cur v D H. destruct (G a cur v D H) as [->|L]; cbn [length]; lia.
Qed.
Lemma digits_small s : forall acc, forallb is_digit s = true -> digits_value acc s < (acc + 1) * 10 ^ Z.of_nat (length s).
Proof.
  induction s as [|c s IH]; intros acc D; cbn [digits_value length]; [rewrite Z.pow_0_r; lia|].
  cbn [forallb] in D. apply andb_true_iff in D as [D1 D2]. specialize (IH (acc * 10 + (Z.of_N c - 48)) D2).
  rewrite Nat2Z.inj_succ, Z.pow_succ_r by lia. unfold is_digit in D1. apply andb_true_iff in D1 as [_ D1]. apply N.leb_le in D1.
  assert (P : 0 < 10 ^ Z.of_nat (length s)) by (apply Z.pow_pos_nonneg; lia). nia.
Qed.
(** At most 1000000000 lines and no more than nine digits in a row: the numbers are modest. *)
Theorem C77_nine_digits text : Z.of_nat (length text) <= 1000000000 -> (forall l, In l text -> runs_le 9 0 l = true) -> modest text.
Proof.
  intros L R. split; [unfold greatest; lia|]. intros l a I H D. specialize (R l I).
  assert (A : (length a <= 9)%nat).
  { destruct H as (x & y & [->|[->|[->| ->]]]).
    - destruct (runs_inside _ _ _ _ R) as [c C]. exact (runs_length _ _ _ _ D C).
    - rewrite (app_assoc x) in R. rewrite app_assoc in R. destruct (runs_inside _ _ _ _ R) as [c C]. exact (runs_length _ _ _ _ D C).
    - destruct (runs_inside _ _ _ _ R) as [c C]. exact (runs_length _ _ _ _ D C).
    - destruct (runs_inside _ _ _ _ R) as [c C]. exact (runs_length _ _ _ _ D C). }
  pose proof (digits_small a 0 D) as V. assert (P : 10 ^ Z.of_nat (length a) <= 10 ^ 9) by (apply Z.pow_le_mono_r; lia).
  replace (10 ^ 9) with 1000000000 in P by reflexivity. unfold greatest. lia.
Qed.
Print Assumptions C77_nine_digits.
Example C77_example : modest sample /\ folded sample sample /\ safe sample.
Proof.
  split; [|exact C27_example]. apply C77_nine_digits; [vm_compute; discriminate|].
  apply Forall_forall. repeat (apply Forall_cons; [vm_compute; reflexivity|]). constructor.
Qed.
Example C77_tracking_example : fresh ex_model ex_ds /\ abs_run (abs_init (length ex_ds)) ex_ops <> None /\
  (forall d, In d ex_ds -> 0 <= d_src d /\ d_src d + all_lines ex_ds <= greatest).
Proof.
  split; [exact ex_fresh|]. split; [vm_compute; discriminate|].
  intros d [<-|[<-|[<-|[]]]]; vm_compute; split; discriminate.
Qed.
