(** C20 for the other formats: what the type of a difference says about its lines, for any text. *)
From Coq Require Import String Permutation.
From Verif Require SpecNormal.
From Verif Require Import Base QtStr Diff Regex Patterns Parser SpecPatch SpecParse SpecLines PAnyInput PropsParse PropsLines.
Local Open Scope Z_scope.

(** The type of a difference says which side has no lines; common lines are the same on both sides. *)
Definition sided (d : difference) : Prop :=
  match d_type d with
  | Insert => d_slines d = []
  | Delete => d_dlines d = []
  | Unchanged => d_slines d <> [] /\ lines_of (d_slines d) = lines_of (d_dlines d)
  | Change => True
  end.

Lemma no_lines l : lines_of l = [] -> l = [].
Proof. destruct l; [auto|discriminate]. Qed.
Lemma some_lines l ts : lines_of l = ts -> ts <> [] -> l <> [].
Proof. intros <- H ->. exact (H eq_refl). Qed.
Lemma skipped_nonempty (os ns : list str) : os <> [] \/ ns <> [] -> ns ++ skipn (length ns) os <> [].
Proof. intros H E. apply app_eq_nil in E. destruct E as [E1 E2]. subst ns. cbn [length skipn] in E2. subst os. destruct H; auto. Qed.

Lemma commands_sided ls hs rest : commands ls hs rest -> Forall (fun p => Forall sided (snd p)) hs.
Proof.
  induction 1 as [|l ty a b body old new h d ls hs rest CL CB _ _ _ _ _ SH _ _ IH]; [constructor|].
  constructor; [|exact IH]. cbn [snd]. constructor; [|constructor]. destruct SH as (T & O & W). unfold sided. rewrite T.
  inversion CB; subst ty; auto; apply no_lines; congruence.
Qed.
Lemma paired_sided old new ds : paired old new ds -> Forall (fun d => sided d /\ (d_type d = Change -> d_slines d <> [] \/ d_dlines d <> [])) ds.
Proof.
  induction 1 as [|ts old new d ds N _ S _ IH|ts old new d ds N _ _ S _ IH|os ns old new d ds N _ _ S _ IH|os ns old new d ds N _ _ _ _ S _ IH|].
  - constructor.
  - constructor; [|exact IH]. destruct S as (T & O & W). unfold sided. rewrite T. split; [apply no_lines; exact W|discriminate].
  - constructor; [|exact IH]. destruct S as (T & O & W). unfold sided. rewrite T. split; [apply no_lines; exact O|discriminate].
  - constructor; [|exact IH]. destruct S as (T & O & W). unfold sided. rewrite T. split; [|discriminate].
    split; [|congruence]. apply (some_lines _ _ O). apply skipped_nonempty. exact N.
  - constructor; [|exact IH]. destruct S as (T & O & W). unfold sided. rewrite T. split; [exact I|]. intros _.
    destruct N as [N|N]; [left; exact (some_lines _ _ O N)|right; exact (some_lines _ _ W N)].
  - constructor.
Qed.
Lemma chunks_sided ls hs rest : chunks ls hs rest ->
  Forall (fun p => Forall (fun d => sided d /\ (d_type d = Change -> d_slines d <> [] \/ d_dlines d <> [])) (snd p)) hs.
Proof. induction 1; auto. constructor; [|assumption]. cbn [snd]. eapply paired_sided. eassumption. Qed.

Lemma files_each (starts : str -> Prop) (heading : list str -> dmodel -> Prop) (hunks : list str -> list (hunk * list difference) -> list str -> Prop) (P : list (hunk * list difference) -> Prop) ls ms b :
  (forall ls hs rest, hunks ls hs rest -> P hs) -> files_with starts heading hunks ls ms b ->
  Forall (fun m => exists hs, contents m hs /\ P hs) ms.
Proof. intros HP. induction 1; auto. constructor; [|assumption]. eexists. split; [eassumption|]. eapply HP. eassumption. Qed.

(** Context diffs, well-formed or not: a changed difference has lines on one side at least. *)
Theorem C20_context_differences_typed :
  forall sort ls o, (forall l, Permutation (sort l) l) -> parse sort ls = Ok o -> po_format o = Context ->
  Forall (fun m => exists hs, contents m hs /\
     Forall (fun p => Forall (fun d => sided d /\ (d_type d = Change -> d_slines d <> [] \/ d_dlines d <> [])) (snd p)) hs)
    (the_models (po_models o)).
Proof.
  intros sort ls o HP H F. destruct (C97_context_lines sort ls o HP H F) as (ms & PM & R).
  eapply Permutation_Forall; [apply Permutation_sym; exact PM|].
  destruct (po_generator o); exact (files_each _ _ _ _ _ _ _ chunks_sided R).
Qed.
Print Assumptions C20_context_differences_typed.
(** Normal diffs, well-formed or not. *)
Theorem C20_normal_differences_typed :
  forall sort ls o, (forall l, Permutation (sort l) l) -> parse sort ls = Ok o -> po_format o = Normal ->
  Forall (fun m => exists hs, contents m hs /\ Forall (fun p => Forall sided (snd p)) hs) (the_models (po_models o)).
Proof.
  intros sort ls o HP H F. destruct (C97_normal_lines sort ls o HP H F) as (ms & PM & R).
  eapply Permutation_Forall; [apply Permutation_sym; exact PM|].
  assert (W : forall (starts : str -> Prop) (heading : list str -> dmodel -> Prop) ls ms b, normal_with starts heading ls ms b ->
    Forall (fun m => exists hs, contents m hs /\ Forall (fun p => Forall sided (snd p)) hs) ms).
  { clear. intros starts heading ls ms b (ms1 & b1 & hs & rest & R & C & [[_ ->]|(_ & m & -> & K & _)] & _).
    - exact (files_each _ _ _ _ _ _ _ commands_sided R).
    - apply Forall_app. split; [exact (files_each _ _ _ _ _ _ _ commands_sided R)|].
      constructor; [|constructor]. exists hs. split; [exact K|]. exact (commands_sided _ _ _ C). }
  destruct (po_generator o).
  - exact (W _ _ _ _ _ R).
  - exact (W _ _ _ _ _ R).
  - exact (files_each _ _ _ _ _ _ _ commands_sided R).
Qed.
Print Assumptions C20_normal_differences_typed.

(** More is not true of these formats: an addition without lines, and a change with lines on one side only, are accepted and not
    called malformed. *)
Definition bare_addition : list str := [lit "1a2" ++ [NL]].
Definition one_sided : list str := map (fun s => lit s ++ [NL])
  ["*** a"; "--- b"; "***************"; "*** 1,2 ****"; "! x"; "  y"; "--- 1,2 ----"; "  y"]%string.
Theorem C20_other_formats_limits :
  (exists o m d, parse (fun l => l) bare_addition = Ok o /\ po_format o = Normal /\ po_malformed o = false /\
     the_models (po_models o) = [m] /\ dm_store m = [d] /\ d_type d = Insert /\ d_dlines d = []) /\
  (exists o m d, parse (fun l => l) one_sided = Ok o /\ po_format o = Context /\ po_malformed o = false /\
     the_models (po_models o) = [m] /\ In d (dm_store m) /\ d_type d = Change /\ d_dlines d = []).
Proof.
  split.
  - destruct (parse (fun l => l) bare_addition) as [o| |] eqn:E; [|vm_compute in E; discriminate E|vm_compute in E; discriminate E].
    vm_compute in E. injection E as <-. eexists _, _, _. split; [reflexivity|]. repeat split; reflexivity.
  - destruct (parse (fun l => l) one_sided) as [o| |] eqn:E; [|vm_compute in E; discriminate E|vm_compute in E; discriminate E].
    vm_compute in E. injection E as <-. eexists _, _, _. split; [reflexivity|]. do 2 (split; [reflexivity|]). split; [reflexivity|]. split; [left; reflexivity|]. split; reflexivity.
Qed.
Print Assumptions C20_other_formats_limits.
