(** Saving and loading the settings. *)
From Coq Require Import String.
From Verif Require Import Base QtStr Settings SpecParse PLevTable PHeaders PUnifiedPrint PProcess.
Open Scope Z_scope.

Lemma read_bool_text b : read_bool (bool_text b) = b.
Proof. destruct b; reflexivity. Qed.
Definition int (n : Z) : Prop := -2147483648 <= n <= 2147483647.
Lemma read_int_number n d : int n -> read_int (number n) d = n.
Proof.
  intros [A B]. unfold read_int. destruct (Z.ltb_spec n 0) as [H|H].
  - destruct (number_negative n H) as (u & -> & N & D & V). cbn [N.eqb Pos.eqb]. rewrite D, V.
    destruct u; [now elim N|]. cbn [length Nat.eqb negb andb].
    destruct (Z.leb_spec (-2147483648) (-1 * - n)), (Z.leb_spec (-1 * - n) 2147483647); cbn [andb]; lia.
  - destruct (number_ok n H) as [[N D] V]. destruct (number n) as [|c t] eqn:E; [now elim N|].
    assert (C : N.eqb c 45 = false). { destruct (N.eqb_spec c 45) as [->|]; [|reflexivity]. cbn in D. discriminate. }
    rewrite C, D, V. cbn [length Nat.eqb negb andb].
    destruct (Z.leb_spec (-2147483648) (1 * n)), (Z.leb_spec (1 * n) 2147483647); cbn [andb]; lia.
Qed.

Lemma unquote_quote s : forall val rest, unquote false val (quote s ++ rest) = unquote false (val ++ s) rest.
Proof.
  induction s as [|c s IH]; intros val rest; [cbn; now rewrite app_nil_r|].
  cbn [quote flat_map]. destruct (N.eqb_spec c BSL) as [->|B]; [|destruct (N.eqb_spec c COMMA) as [->|C]]; cbn [orb app].
  - cbn [unquote N.eqb Pos.eqb BSL]. change (flat_map _ s) with (quote s). rewrite IH, <- app_assoc. reflexivity.
  - cbn [unquote N.eqb Pos.eqb BSL COMMA]. change (flat_map _ s) with (quote s). rewrite IH, <- app_assoc. reflexivity.
  - cbn [unquote]. destruct (N.eqb_spec c BSL); [easy|]. destruct (N.eqb_spec c COMMA); [easy|]. change (flat_map _ s) with (quote s). rewrite IH, <- app_assoc. reflexivity.
Qed.
Lemma unquote_join l : l <> [] -> unquote false [] (join_quoted l) = l.
Proof.
  induction l as [|s l IH]; intros N; [now elim N|]. cbn [join_quoted]. destruct l as [|s' l].
  - rewrite <- (app_nil_r (quote s)), unquote_quote. reflexivity.
  - rewrite unquote_quote. cbn [app unquote N.eqb Pos.eqb BSL COMMA]. f_equal. apply IH. discriminate.
Qed.
Lemma join_nil l : l <> [] -> join_quoted l = [] -> l = [[]].
Proof.
  destruct l as [|s [|s' l]]; intros N H; [now elim N| |].
  - f_equal. destruct s as [|c s]; [reflexivity|]. cbn in H. destruct (_ || _)%bool; discriminate.
  - cbn [join_quoted] in H. now destruct (quote s).
Qed.
Lemma join_escape l c t : join_quoted l = BSL :: c :: t -> c = BSL \/ c = COMMA.
Proof.
  assert (Q : forall s u, quote s ++ u = BSL :: c :: t -> (u = [] \/ exists v, u = COMMA :: v) -> c = BSL \/ c = COMMA).
  { intros [|d s] u H U; cbn [quote flat_map app] in H.
    - destruct U as [->|[v ->]]; [discriminate|]. unfold COMMA, BSL in H. discriminate.
    - destruct (N.eqb_spec d BSL) as [->|B]; cbn [orb app] in H; [injection H; auto|].
      destruct (N.eqb_spec d COMMA) as [->|C]; cbn [orb app] in H; [injection H; auto|]. injection H. intros _ E. now elim B. }
  destruct l as [|s [|s' l]]; cbn [join_quoted]; intros H; [discriminate| |].
  - apply (Q s []); [now rewrite app_nil_r|now left].
  - apply (Q s (COMMA :: join_quoted (s' :: l))); [exact H|right; eauto].
Qed.
Lemma read_list_text l : read_list (list_text l) = l.
Proof.
  unfold list_text. destruct l as [|s l]; [reflexivity|].
  destruct (join_quoted (s :: l)) as [|c t] eqn:E.
  - apply join_nil in E; [|discriminate]. rewrite E. reflexivity.
  - unfold read_list. destruct (str_eqb (c :: t) [BSL; 48%N]) eqn:Q.
    + apply str_eqb_ok in Q. rewrite Q in E. apply join_escape in E as [E|E]; discriminate.
    + rewrite <- E. apply unquote_join. discriminate.
Qed.
