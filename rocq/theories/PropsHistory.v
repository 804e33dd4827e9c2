(** C28-C31: histories of applying, unapplying and saving. *)
From Coq Require Import String.
From Verif Require Import Base QtStr Lev Diff Save SpecHistory PHistory.
Local Open Scope Z_scope.

(** C28. After any history, the run succeeds, and difference number k of the model is the original one
    with its tracking number at source line + lines gained by the applied differences before it, with the
    applied state the history gives it; everything else about it, and about the rest of the model, is
    unchanged. *)
Theorem C28_tracking_after_any_history m ds ops s :
  fresh m ds -> abs_run (abs_init (length ds)) ops = Some s ->
  exists m' ds', run m ops = Ok m' /\ listed m' = Ok ds' /\ same_rest m m' /\ length ds' = length ds /\
    length (f_now s) = length ds /\
    forall k d f, nth_error ds k = Some d -> nth_error (f_now s) k = Some f ->
      exists d', nth_error ds' k = Some d' /\
        d_track d' = d_src d + gained ds (f_now s) k /\
        d_applied d' = f /\
        d_type d' = d_type d /\ d_src d' = d_src d /\ d_dst d' = d_dst d /\
        d_slines d' = d_slines d /\ d_dlines d' = d_dlines d /\
        d_conflicts d' = d_conflicts d /\ d_connected d' = d_connected d.
Proof.
  intros Hf Hr. destruct (history_ok m ds ops s Hf Hr) as (m' & ds' & H1 & H2 & H3 & H4 & H5 & _ & L1 & L2 & _).
  exists m', ds'. split; [exact H1|]. split; [exact H2|]. split; [exact H3|]. split; [exact H4|]. split; [exact L1|].
  intros k d f Hd Hk. destruct (nth_error_Some_lt (f_saved s) k) as [sv Hs].
  { rewrite L2. apply nth_some_lt in Hd. exact Hd. }
  eexists. split; [exact (H5 k d f sv Hd Hk Hs)|]. unfold restate; cbn. repeat (split; [reflexivity|]). reflexivity.
Qed.

(** C29. appliedCount is the number of applied differences after any history that goes through the
    model's own apply functions. *)
Theorem C29_applied_count m ds ops s :
  fresh m ds -> abs_run (abs_init (length ds)) ops = Some s -> forallb no_direct ops = true ->
  exists m' ds', run m ops = Ok m' /\ listed m' = Ok ds' /\
    dm_applied m' = Z.of_nat (length (filter d_applied ds')).
Proof.
  intros Hf Hr Hd. destruct (history_ok m ds ops s Hf Hr) as (m' & ds' & H1 & H2 & H3 & H4 & H5 & _ & L1 & L2 & Hc).
  exists m', ds'. split; [exact H1|]. split; [exact H2|]. rewrite (Hc Hd).
  assert (forall fs (l : list difference), length fs = length l -> (forall k f, nth_error fs k = Some f -> exists d, nth_error l k = Some d /\ d_applied d = f) ->
            count_true fs = Z.of_nat (length (filter d_applied l))) as Hgen.
  { clear. induction fs as [|f fs IH]; intros [|d l] Hlen H; cbn in Hlen; try discriminate; [reflexivity|].
    destruct (H 0%nat f eq_refl) as (d0 & E & Ef). cbn in E. injection E as <-.
    cbn [count_true filter]. rewrite Ef. rewrite (IH l) by (congruence || (intros k g Hk; apply (H (S k) g Hk))).
    destruct f; cbn [length]; lia. }
  apply Hgen; [congruence|]. intros k f Hk.
  destruct (nth_error_Some_lt ds k) as [d Hdk]; [apply nth_some_lt in Hk; lia|].
  destruct (nth_error_Some_lt (f_saved s) k) as [sv Hs]; [apply nth_some_lt in Hk; lia|].
  eexists. split; [exact (H5 k d f sv Hdk Hk Hs)|]. reflexivity.
Qed.

(** C30. A difference is unsaved exactly when its state differs from its state at the last successful
    save, whatever saves failed, and hasUnsavedChanges says whether there is one. *)
Theorem C30_unsaved_after_any_history m ds ops s :
  fresh m ds -> abs_run (abs_init (length ds)) ops = Some s ->
  exists m' ds', run m ops = Ok m' /\ listed m' = Ok ds' /\
    (forall k d' now saved, nth_error ds' k = Some d' -> nth_error (f_now s) k = Some now ->
       nth_error (f_saved s) k = Some saved -> (d_unsaved d' = true <-> now <> saved)) /\
    (exists u, has_unsaved m' = Ok u /\ (u = true <-> f_now s <> f_saved s)).
Proof.
  intros Hf Hr. destruct (history_ok m ds ops s Hf Hr) as (m' & ds' & H1 & H2 & H3 & H4 & H5 & H6 & L1 & L2 & Hc).
  exists m', ds'. split; [exact H1|]. split; [exact H2|].
  assert (forall k d' now saved, nth_error ds' k = Some d' -> nth_error (f_now s) k = Some now ->
       nth_error (f_saved s) k = Some saved -> d_unsaved d' = xorb now saved) as Hx.
  { intros k d' now saved Hd Hn Hs. destruct (nth_error_Some_lt ds k) as [d Hdk]; [apply nth_some_lt in Hd; lia|].
    rewrite (H5 k d now saved Hdk Hn Hs) in Hd. injection Hd as <-. reflexivity. }
  split.
  - intros k d' now saved Hd Hn Hs. rewrite (Hx k d' now saved Hd Hn Hs). destruct now, saved; cbn; split; congruence.
  - eexists. split; [exact H6|]. 
    assert (forall l fs ss, length fs = length l -> length ss = length l ->
              (forall k (d' : difference) now saved, nth_error l k = Some d' -> nth_error fs k = Some now -> nth_error ss k = Some saved -> d_unsaved d' = xorb now saved) ->
              (existsb d_unsaved l = true <-> fs <> ss)) as Hgen.
    { clear. induction l as [|d l IH]; intros [|f fs] [|g ss] A B H; cbn in A, B; try discriminate; [cbn; split; congruence|].
      cbn [existsb]. rewrite (H 0%nat d f g eq_refl eq_refl eq_refl), orb_true_iff.
      rewrite (IH fs ss ltac:(congruence) ltac:(congruence)) by (intros k d' now saved; apply (H (S k))).
      destruct f, g; cbn; split; try congruence; try (intros _; left; reflexivity); try (intros [E|E]; congruence);
        intros E; right; intros ->; apply E; reflexivity. }
    apply Hgen; congruence || assumption.
Qed.

(** C31. Two histories ending in the same applied set leave the same line numbers in every difference;
    unapplying everything restores the initial ones. *)
Theorem C31_order_irrelevant m ds ops1 ops2 s1 s2 :
  fresh m ds -> abs_run (abs_init (length ds)) ops1 = Some s1 -> abs_run (abs_init (length ds)) ops2 = Some s2 ->
  f_now s1 = f_now s2 ->
  exists m1 m2 ds1 ds2, run m ops1 = Ok m1 /\ run m ops2 = Ok m2 /\ listed m1 = Ok ds1 /\ listed m2 = Ok ds2 /\
    map (fun d => (d_src d, d_dst d, d_track d, d_applied d)) ds1 = map (fun d => (d_src d, d_dst d, d_track d, d_applied d)) ds2.
Proof.
  intros Hf R1 R2 E.
  destruct (history_ok m ds ops1 s1 Hf R1) as (m1 & ds1 & A1 & A2 & A3 & A4 & A5 & _ & AL1 & AL2 & _).
  destruct (history_ok m ds ops2 s2 Hf R2) as (m2 & ds2 & B1 & B2 & B3 & B4 & B5 & _ & BL1 & BL2 & _).
  exists m1, m2, ds1, ds2. split; [exact A1|]. split; [exact B1|]. split; [exact A2|]. split; [exact B2|].
  apply nth_error_ext. intros k. rewrite !nth_error_map.
  destruct (nth_error ds k) as [d|] eqn:Ed.
  - pose proof (nth_some_lt _ _ _ Ed) as Hk.
    destruct (nth_error_Some_lt (f_now s1) k) as [f Hfk]; [lia|].
    destruct (nth_error_Some_lt (f_saved s1) k) as [g1 Hg1]; [lia|].
    destruct (nth_error_Some_lt (f_saved s2) k) as [g2 Hg2]; [lia|].
    rewrite (A5 k d f g1 Ed Hfk Hg1). rewrite E in Hfk. rewrite (B5 k d f g2 Ed Hfk Hg2). rewrite E. reflexivity.
  - apply nth_error_None in Ed.
    assert (nth_error ds1 k = None) as -> by (apply nth_error_None; lia).
    assert (nth_error ds2 k = None) as -> by (apply nth_error_None; lia). reflexivity.
Qed.
Theorem C31_unapply_all_restores m ds ops s :
  fresh m ds -> abs_run (abs_init (length ds)) ops = Some s ->
  exists m' ds', run m (ops ++ [ApplyAll false]) = Ok m' /\ listed m' = Ok ds' /\
    map d_track ds' = map d_track ds /\ map d_applied ds' = map (fun _ => false) ds.
Proof.
  intros Hf Hr.
  assert (abs_run (abs_init (length ds)) (ops ++ [ApplyAll false]) = Some (mk_flags (map (fun _ => false) (f_now s)) (f_saved s) (f_sel s))) as Hr'.
  { revert Hr. generalize (abs_init (length ds)). induction ops as [|o ops IH]; intros s0 Hr; cbn in *; [injection Hr as ->; reflexivity|].
    destruct (abs_op s0 o); [apply IH; exact Hr|discriminate]. }
  destruct (history_ok m ds _ _ Hf Hr') as (m' & ds' & A1 & A2 & A3 & A4 & A5 & _ & AL1 & AL2 & _). cbn [f_now f_saved] in *.
  exists m', ds'. split; [exact A1|]. split; [exact A2|].
  assert (forall (l : list difference) k (fs : list bool), gained l (map (fun _ => false) fs) k = 0) as Hg.
  { induction l as [|d l IH]; intros [|k] [|f fs]; cbn; auto. }
  assert (forall k d, nth_error ds k = Some d -> exists d', nth_error ds' k = Some d' /\ d_track d' = d_track d /\ d_applied d' = false) as Hk.
  { intros k d Hd. pose proof (nth_some_lt _ _ _ Hd) as Hlt.
    destruct (nth_error_Some_lt (f_saved s) k) as [g Hgk]; [lia|].
    assert (nth_error (map (fun _ => false) (f_now s)) k = Some false) as Hfk.
    { rewrite nth_error_map. rewrite map_length in AL1. destruct (nth_error_Some_lt (f_now s) k) as [f ->]; [lia|]. reflexivity. }
    eexists. split; [exact (A5 k d false g Hd Hfk Hgk)|]. unfold restate; cbn. rewrite Hg.
    destruct Hf as [_ _ _ HS _ _ _]. destruct (HS d (nth_error_In _ _ Hd)) as (_ & _ & _ & ->). split; [lia|reflexivity]. }
  split; apply nth_error_ext; intros k; rewrite !nth_error_map; destruct (nth_error ds k) as [d|] eqn:Ed; cbn.
  - destruct (Hk k d Ed) as (d' & -> & E1 & E2). cbn. congruence.
  - apply nth_error_None in Ed. assert (nth_error ds' k = None) as -> by (apply nth_error_None; lia). reflexivity.
  - destruct (Hk k d Ed) as (d' & -> & E1 & E2). cbn. congruence.
  - apply nth_error_None in Ed. assert (nth_error ds' k = None) as -> by (apply nth_error_None; lia). reflexivity.
Qed.

(** * A concrete model meeting the hypotheses *)
Definition ex_ds : list difference :=
  [ mk_diff Change 3 3 3 [new_ds (lit "a"); new_ds (lit "b")] [new_ds (lit "c")] false false false true;
    mk_diff Insert 8 7 8 [] [new_ds (lit "x"); new_ds (lit "y"); new_ds (lit "z")] false false false true;
    mk_diff Delete 12 14 12 [new_ds (lit "q")] [] false false false true ].
Definition ex_model : dmodel :=
  with_contents (new_model (lit "a/b") (lit "b/b")) [mk_hunk 3 3 [] HNormal [0; 1; 2]%nat] [0; 1; 2]%nat ex_ds.
Example ex_fresh : fresh ex_model ex_ds.
Proof.
  constructor; cbn; auto.
  - repeat constructor; cbn; lia.
  - intros h [<-|[]] i Hi. cbn in *. lia.
  - intros d [<-|[<-|[<-|[]]]]; cbn; auto.
  - lia.
Qed.
Definition ex_bad_save := mk_save_env true true true false true true false.
Definition ex_good_save := mk_save_env true true true true false true true.
Definition ex_ops : list op :=
  [Select 0; ApplySelected true; ApplySelected true; SaveOp ex_good_save; Select 1; ApplySelected true; SaveOp ex_bad_save].
Example ex_run : abs_run (abs_init 3) ex_ops = Some (mk_flags [true; true; false] [true; false; false] (Some 1%nat)).
Proof. reflexivity. Qed.
Example ex_result : exists m', run ex_model ex_ops = Ok m' /\ dm_applied m' = 2 /\ has_unsaved m' = Ok true /\
  exists ds', listed m' = Ok ds' /\ map d_track ds' = [3; 7; 14].
Proof.
  eexists. split; [vm_compute; reflexivity|]. split; [reflexivity|]. split; [reflexivity|]. eexists. split; reflexivity.
Qed.

(** C29 is false when a Difference is applied directly (the model does not count it). *)
Theorem C29_direct_apply_not_counted_refuted : exists m ds ops s m' ds',
  fresh m ds /\ abs_run (abs_init (length ds)) ops = Some s /\ run m ops = Ok m' /\ listed m' = Ok ds' /\
  dm_applied m' <> Z.of_nat (length (filter d_applied ds')).
Proof.
  exists ex_model, ex_ds, [ApplyDirect 1 true], (mk_flags [false; true; false] [false; false; false] None).
  eexists. eexists. split; [exact ex_fresh|]. split; [reflexivity|]. split; [vm_compute; reflexivity|].
  split; [vm_compute; reflexivity|]. vm_compute. discriminate.
Qed.

Print Assumptions C28_tracking_after_any_history.
Print Assumptions C29_applied_count.
Print Assumptions C30_unsaved_after_any_history.
Print Assumptions C31_order_irrelevant.
Print Assumptions C31_unapply_all_restores.
Print Assumptions C29_direct_apply_not_counted_refuted.
