(** C71, C72: destruction and copies. *)
From Coq Require Import ZifyBool ZifyNat String Permutation.
From Verif Require Import Base QtStr Lev Diff Save LinesChanged Parser Blend Memory SpecEdit SpecInline SpecText SpecHistory SpecPatch SpecParse SpecBlend PHistory PEditLines PAnyInput PBlend PropsParse PropsUnified PropsEdit PropsWorkflow SpecCalls PropsCalls.
Local Open Scope Z_scope.

Lemma delete_list_ok l : forall h, NoDup l -> (forall a, In a l -> h a = true) ->
  exists h', delete_list h l = Ok h' /\ forall a, h' a = true <-> h a = true /\ ~ In a l.
Proof.
  induction l as [|a l IH]; intros h ND L; cbn [delete_list].
  - exists h. split; [reflexivity|]. intros a. split; [intros H; split; [exact H|intros []]|tauto].
  - inversion ND as [|? ? N1 N2]; subst. unfold delete. rewrite (L a) by (left; reflexivity). cbn [bind].
    destruct (IH (fun b => if Nat.eqb b a then false else h b) N2) as (h' & E & H).
    { intros b Hb. destruct (Nat.eqb_spec b a) as [->|]; [contradiction|]. apply L. right; exact Hb. }
    exists h'. split; [exact E|]. intros b. rewrite H. destruct (Nat.eqb_spec b a) as [->|Ne]; cbn; [|intuition congruence].
    split; [intros [X _]; discriminate|intros [_ X]; exfalso; apply X; left; reflexivity].
Qed.
Lemma delete_list_dup l : forall h, (exists a, In a l /\ h a = false) -> exists why, delete_list h l = UB why.
Proof.
  induction l as [|b l IH]; intros h (a & Ha & Hh); [destruct Ha|]. cbn [delete_list]. unfold delete. destruct (h b) eqn:E; [|cbn; eauto]. cbn [bind].
  apply IH. destruct Ha as [->|Ha]; [congruence|]. exists a. split; [exact Ha|]. destruct (Nat.eqb a b); [reflexivity|exact Hh].
Qed.
Lemma delete_list_gone l : forall h h', delete_list h l = Ok h' -> forall a, In a l -> h' a = false.
Proof.
  induction l as [|b l IH]; intros h h' H a Ha; [destruct Ha|]. cbn [delete_list] in H. unfold delete in H. destruct (h b); [|discriminate]. cbn [bind] in H.
  destruct (in_dec Nat.eq_dec a l) as [I|I]; [eapply IH; eassumption|]. destruct Ha as [->|Ha]; [|contradiction].
  assert (forall l h h', delete_list h l = Ok h' -> h a = false -> h' a = false) as K.
  { clear. induction l as [|b l IH]; intros h h' H E; cbn [delete_list] in H; [congruence|]. unfold delete in H. destruct (h b); [|discriminate]. cbn [bind] in H.
    eapply IH; [exact H|]. cbv beta. destruct (Nat.eqb a b); [reflexivity|exact E]. }
  eapply K; [exact H|]. cbv beta. rewrite Nat.eqb_refl. reflexivity.
Qed.

(** * C71 *)
Lemma links_good m hs : links m hs -> 0 <= dm_index m -> (forall i, dm_sel m = Some i -> (i < length (dm_store m))%nat) -> pointers_good m.
Proof.
  intros [A B C D E F] I S. split; [|split; [|auto]].
  - intros i Hi. eapply deref_all_lt; [exact C|exact Hi].
  - intros h i Hh Hi. rewrite A in Hh. apply in_map_iff in Hh as (p & <- & Hp). rewrite Forall_forall in B. eapply deref_all_lt; [exact (B p Hp)|exact Hi].
Qed.
(** A model as it was parsed, or with a file blended in. *)
Definition starts (m : dmodel) (file : option str) : res dmodel := match file with None => Ok m | Some text => blend_file m text end.

(** Whatever diff is read, in whatever format, whatever file is blended and whatever calls are made: destroying the model
    deletes no object twice and no object that does not exist, and what is left of its differences are exactly those that are
    not in the list of differences. *)
Theorem C71_deleted_once qhash sort ls o m file cs :
  (forall l, Permutation (sort l) l) -> parse sort ls = Ok o -> In m (the_models (po_models o)) ->
  exists m0, starts m file = Ok m0 /\
  (all_respected qhash m0 cs -> exists m' rest, do_calls qhash m0 cs = Ok m' /\ destroy_model m' = Ok rest /\
    forall i, rest i = true <-> (i < length (dm_store m'))%nat /\ ~ In i (dm_diffs m')).
Proof.
  intros HP H Hm. pose proof (C21_hunks_contiguous sort ls o HP H) as F. rewrite Forall_forall in F. destruct (F m Hm) as (_ & hs & [L (S1 & S2 & S3 & S4)] & _).
  assert (exists m0, starts m file = Ok m0 /\ pointers_good m0) as (m0 & E0 & G0).
  { destruct file as [text|]; cbn [starts].
    - destruct (blend_ok m hs text L) as (mb & out & more & E & ES & LB & FI & SB & BL & _). exists mb. split; [exact E|].
      unfold same_but_hunks in SB. assert (dm_index mb = dm_index m /\ dm_sel mb = dm_sel m) as [Q1 Q2].
      { destruct mb, m. cbn in SB. injection SB. cbn. intros; subst; auto. }
      eapply links_good; [exact LB|lia|]. rewrite Q2, S3. discriminate.
    - exists m. split; [reflexivity|]. eapply links_good; [exact L|lia|]. rewrite S3. discriminate. }
  exists m0. split; [exact E0|]. intros R. destruct (C69_calls_defined qhash cs m0 G0 R) as (m' & E & (A & _ & _ & D & _)).
  destruct (delete_list_ok (dm_diffs m') (fun i => Nat.ltb i (length (dm_store m'))) D) as (rest & EL & HL).
  { intros a Ha. apply Nat.ltb_lt. exact (A a Ha). }
  exists m', rest. split; [exact E|]. split; [exact EL|]. intros i. rewrite HL, Nat.ltb_lt. reflexivity.
Qed.
Print Assumptions C71_deleted_once.
(** Nothing is left: false. The common lines of a hunk are differences that nobody deletes; so is what an edit removes. *)
Definition C71_run (cs : list call) : res (dmodel * heap) :=
  do m <- C66_opened; do m' <- do_calls ex_hash m cs; do h <- destroy_model m'; Ok (m', h).
Theorem C71_all_deleted_refuted :
  (exists m rest, C71_run [] = Ok (m, rest) /\ exists i d, nth_error (dm_store m) i = Some d /\ rest i = true) /\
  (exists m rest, C71_run [EditLines [nl "2"] [nl "NEW"] 2] = Ok (m, rest) /\
     exists i d, nth_error (dm_store m) i = Some d /\ d_type d = Change /\ rest i = true).
Proof.
  split.
  - assert (match C71_run [] with Ok (m, rest) => exists d, nth_error (dm_store m) 0 = Some d /\ rest 0%nat = true | _ => False end) as H
      by (vm_compute; eexists; split; reflexivity).
    destruct (C71_run []) as [[m rest]| |]; try contradiction. destruct H as (d & H1 & H2). exists m, rest. split; [reflexivity|]. exists 0%nat, d. auto.
  - set (r := C71_run _). assert (match r with Ok (m, rest) => exists d, nth_error (dm_store m) 1 = Some d /\ d_type d = Change /\ rest 1%nat = true | _ => False end) as H
      by (vm_compute; eexists; repeat split; reflexivity).
    destruct r as [[m rest]| |]; try contradiction. destruct H as (d & H1 & H2 & H3). exists m, rest. split; [reflexivity|]. exists 1%nat, d. auto.
Qed.
Print Assumptions C71_all_deleted_refuted.
Example C71_example :
  match parse (fun l => l) (map nl ["--- a	1"; "+++ b	2"; "@@ -1,3 +1,3 @@"; " 1"; "-2"; "+x"; " 3"]%string) with
  | Ok o => match the_models (po_models o) with
            | [m] => match starts m (Some (concat (map nl ["1"; "2"; "3"; "4"]%string))) with
                     | Ok m0 => match do_calls ex_hash m0 [First; ApplyOne true; EditLines [nl "4"] [nl "NEW"] 4; Next; ApplyEach false] with
                                | Ok m' => length (dm_store m') = 5%nat /\ length (dm_diffs m') = 2%nat
                                | _ => False end
                     | _ => False end
            | _ => False end
  | _ => False end.
Proof. vm_compute. auto. Qed.

(** * C72 *)
(** A copied DifferenceString that has markers, or a copied list that has models, makes destruction undefined; without markers,
    or without models, it is defined. *)
Theorem C72_copied_string_refuted : exists h s why, (exists h', destroy_string h s = Ok h') /\
  (do h' <- destroy_string h (copy_string s); destroy_string h' s) = UB why.
Proof. exists (fun _ => true), (mk_so [] [] 0 [0%nat; 1%nat]). eexists. split; [eexists; reflexivity|reflexivity]. Qed.
Print Assumptions C72_copied_string_refuted.
Theorem C72_copied_list_refuted : exists h l why, (exists h', destroy_list h l = Ok h') /\ (do h' <- destroy_list h (copy_list l); destroy_list h' l) = UB why.
Proof. exists (fun _ => true), [0%nat]. eexists. split; [eexists; reflexivity|reflexivity]. Qed.
Print Assumptions C72_copied_list_refuted.
Theorem C72_copies_destroyed h s : NoDup (so_markers s) -> (forall a, In a (so_markers s) -> h a = true) ->
  (exists h', (do h' <- destroy_string h (copy_string s); destroy_string h' s) = Ok h') <-> so_markers s = [].
Proof.
  intros ND L. unfold destroy_string, copy_string. cbn [so_markers]. split.
  - intros (h2 & H). destruct (delete_list_ok _ _ ND L) as (h' & E & _). rewrite E in H. cbn [bind] in H. pose proof (delete_list_gone _ _ _ E) as G.
    destruct (so_markers s) as [|a l]; [reflexivity|]. destruct (delete_list_dup (a :: l) h') as (why & W); [exists a; split; [left; reflexivity|apply G; left; reflexivity]|]. congruence.
  - intros ->. cbn. eauto.
Qed.
Print Assumptions C72_copies_destroyed.
Theorem C72_copied_list_destroyed h l : NoDup l -> (forall a, In a l -> h a = true) ->
  (exists h', (do h' <- destroy_list h (copy_list l); destroy_list h' l) = Ok h') <-> l = [].
Proof. intros ND L. exact (C72_copies_destroyed h (mk_so [] [] 0 l) ND L). Qed.
Print Assumptions C72_copied_list_destroyed.
(** Assigning a model: a diff of one change is opened, the change is applied, the model is assigned to a new one: the new one
    has no difference and one applied difference, and recreates a diff without hunks. *)
Theorem C72_assigned_model_refuted : exists m m', C66_opened = Ok m /\ apply_all m true = Ok m' /\
  let c := assign_model (new_model [] []) m' in
  dm_diffs c = [] /\ dm_applied c = 1 /\ recreate_diff c = Ok (recreate_header m') /\ recreate_diff m' <> recreate_diff c.
Proof.
  assert (match C66_opened with Ok m => match apply_all m true with Ok m' => dm_applied m' = 1 /\ exists t, recreate_diff m' = Ok t /\ length t <> length (recreate_header m') | _ => False end | _ => False end) as H.
  { vm_compute. split; [reflexivity|]. eexists. split; [reflexivity|]. discriminate. }
  destruct C66_opened as [m| |]; try contradiction. destruct (apply_all m true) as [m'| |] eqn:E; try contradiction. destruct H as (H & t & Ht & Hl).
  exists m, m'. split; [reflexivity|]. split; [exact E|]. cbv zeta.
  assert (recreate_diff (assign_model (new_model [] []) m') = Ok (recreate_header m')) as ER.
  { unfold recreate_diff. cbn [assign_model new_model split_destination split_source with_names empty_model dm_hunks dm_store].
    change (recreate_hunks _ _) with (@Ok str []). cbn [bind]. rewrite app_nil_r. reflexivity. }
  split; [reflexivity|]. split; [exact H|]. split; [exact ER|]. rewrite ER, Ht. intros X. injection X as ->. apply Hl. reflexivity.
Qed.
Print Assumptions C72_assigned_model_refuted.
(** What an assigned model has: the names, stamps, revisions, the count, the index and the selection of the other. *)
Theorem C72_assigned_model_partial a b : let c := assign_model a b in
  recreate_header c = recreate_header b /\ (forall coll x, model_less coll c x = model_less coll b x /\ model_less coll x c = model_less coll x b) /\
  dm_applied c = dm_applied b /\ dm_index c = dm_index b /\ dm_sel c = dm_sel b /\
  destroy_model c = destroy_model a.
Proof. repeat split; reflexivity. Qed.
Print Assumptions C72_assigned_model_partial.
