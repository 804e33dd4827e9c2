(** The unified parser on any input: invariants of the loops. *)
From Coq Require Import String Permutation.
From Verif Require Import Base QtStr Lev Diff Regex Patterns Parser SpecEdit SpecInline SpecPatch SpecParse
  PRegex PLev PHistory PEditLines.
Local Open Scope Z_scope.

(** * determineInlineDifferences changes markers only *)
Lemma same_text_refl s : same_text s s.
Proof. exists (ds_markers s). destruct s. reflexivity. Qed.
Lemma same_text_lines l l' : Forall2 same_text l l' -> lines_of l' = lines_of l.
Proof. induction 1 as [|x y l l' [ms ->] _ IH]; cbn; [reflexivity|]. f_equal. exact IH. Qed.
Lemma inline_lines_shape sl : forall dl t sl' dl', inline_lines t sl dl = Ok (sl', dl') ->
  Forall2 same_text sl sl' /\ Forall2 same_text dl dl'.
Proof.
  induction sl as [|s sl IH]; intros [|d dl] t sl' dl' H; cbn [inline_lines] in H; try discriminate.
  - injection H as <- <-. auto.
  - destruct (inline_line t s d) as [[[t' s'] d']| |] eqn:E; try discriminate. cbn [bind] in H.
    destruct (inline_lines t' sl dl) as [[sl2 dl2]| |] eqn:E2; try discriminate. cbn [bind] in H.
    injection H as <- <-. apply IH in E2 as [A B].
    assert (same_text s s' /\ same_text d d') as [S1 S2].
    { unfold inline_line in E.
      destruct (create_table t _) as [[dist t1]| |]; try discriminate. cbn [bind] in E.
      destruct (Nat.eqb dist 0).
      - injection E as <- <- <-. split; apply same_text_refl.
      - destruct (create_markers t1 _ _ _) as [[m1 m2]| |]; try discriminate. cbn [bind] in E.
        injection E as <- <- <-. split; eexists; reflexivity. }
    split; constructor; assumption.
Qed.
Lemma determine_inline_shape d d' : determine_inline d = Ok d' ->
  exists sl dl, d' = set_lines sl dl d /\ Forall2 same_text (d_slines d) sl /\ Forall2 same_text (d_dlines d) dl.
Proof.
  assert (R : forall l, Forall2 same_text l l) by (intros l; induction l; constructor; auto using same_text_refl).
  assert (I : d = set_lines (d_slines d) (d_dlines d) d) by (destruct d; reflexivity).
  unfold determine_inline. destruct (negb _). { intros H; injection H as <-. eauto. }
  destruct (negb _). { intros H; injection H as <-. eauto. }
  destruct (inline_lines _ _ _) as [[sl dl]| |] eqn:E; try discriminate. cbn [bind].
  intros H; injection H as <-. apply inline_lines_shape in E as [A B]. eauto.
Qed.

Lemma bind_fuel {A B} (x : res A) (f : A -> res B) :
  x <> OutOfFuel -> (forall a, x = Ok a -> f a <> OutOfFuel) -> bind x f <> OutOfFuel.
Proof. destruct x; cbn; intros H K; [apply K; reflexivity|discriminate|congruence]. Qed.
Lemma get_content_fuel t x y : get_content t x y <> OutOfFuel.
Proof. unfold get_content. destruct (N.ltb _ _); discriminate. Qed.
Lemma set_content_fuel t x y v : set_content t x y v <> OutOfFuel.
Proof. unfold set_content. destruct (N.ltb _ _); discriminate. Qed.
Lemma walk_fuel fuel : forall r t x y m1 m2, (x + y < fuel)%nat -> walk fuel r t x y m1 m2 <> OutOfFuel.
Proof.
  induction fuel as [|fuel IH]; intros r t x y m1 m2 L; [lia|]. cbn [walk].
  destruct (Nat.ltb_spec 0 x); cbn [andb]; [|discriminate].
  destruct (Nat.ltb_spec 0 y); [|discriminate].
  repeat (apply bind_fuel; [apply get_content_fuel|intros ? _]).
  destruct (choose_route _ _ _ _ _); apply IH; lia.
Qed.
Lemma create_table_fuel t a b : create_table t (string_pair a b) <> OutOfFuel.
Proof.
  unfold create_table. destruct (set_size _ _ _) as [t'|]; [|discriminate].
  apply bind_fuel.
  - unfold fill_table. apply bind_fuel; [apply for_each_fuel; intros; apply set_content_fuel|intros t1 _].
    apply bind_fuel; [apply for_each_fuel; intros; apply set_content_fuel|intros t2 _].
    apply for_each_fuel. intros j t3. apply for_each_fuel. intros i t4. unfold fill_cell.
    apply bind_fuel; [|intros e _; repeat (apply bind_fuel; [apply get_content_fuel|intros ? _]); apply set_content_fuel].
    unfold string_pair. cbn [sp_equal]. destruct (nth_error _ i); [|discriminate].
    destruct (nth_error _ j); discriminate.
  - intros t1 _. apply bind_fuel; [apply get_content_fuel|discriminate].
Qed.
Lemma create_markers_fuel t p m1 m2 : create_markers t p m1 m2 <> OutOfFuel.
Proof.
  unfold create_markers. apply bind_fuel; [apply get_content_fuel|intros d _].
  destruct (negb _); [discriminate|]. apply bind_fuel; [apply walk_fuel; lia|].
  intros [[[x y] n1] n2] _. discriminate.
Qed.
Lemma inline_lines_fuel sl : forall dl t, inline_lines t sl dl <> OutOfFuel.
Proof.
  induction sl as [|s sl IH]; intros [|d dl] t; cbn [inline_lines]; try discriminate.
  apply bind_fuel.
  - unfold inline_line. apply bind_fuel; [apply create_table_fuel|]. intros [dist t1] _.
    destruct (Nat.eqb dist 0); [discriminate|].
    apply bind_fuel; [apply create_markers_fuel|]. intros [m1 m2] _. discriminate.
  - intros [[t' s'] d'] _. apply bind_fuel; [apply IH|]. intros [a b] _. discriminate.
Qed.
Lemma determine_inline_fuel d : determine_inline d <> OutOfFuel.
Proof.
  unfold determine_inline. destruct (negb _); [discriminate|]. destruct (negb _); [discriminate|].
  apply bind_fuel; [apply inline_lines_fuel|]. intros [a b] _. discriminate.
Qed.

(** * Putting differences into the model *)
Definition linked (d : difference) : difference :=
  if dtype_eqb (d_type d) Unchanged then d else set_connected true d.
Fixpoint ids_from (n : nat) (ds : list difference) : list nat :=
  match ds with
  | [] => []
  | d :: ds' => if dtype_eqb (d_type d) Unchanged then ids_from (S n) ds' else n :: ids_from (S n) ds'
  end.
Lemma update_app_mid {A} (l r : list A) x y : update (l ++ x :: r) (length l) y = l ++ y :: r.
Proof. induction l; cbn; [reflexivity|]. now rewrite IHl. Qed.
Lemma nth_error_mid {A} (l r : list A) x : nth_error (l ++ x :: r) (length l) = Some x.
Proof. induction l; cbn; auto. Qed.
Lemma add_differences_ok ds : forall m h,
  add_differences m h ds =
  Ok (with_contents m (dm_hunks m) (dm_diffs m ++ ids_from (length (dm_store m)) ds)
        (dm_store m ++ map linked ds),
      mk_hunk (h_src h) (h_dst h) (h_function h) (h_type h)
        (h_diffs h ++ seq (length (dm_store m)) (length ds))).
Proof.
  induction ds as [|d ds IH]; intros m h; cbn [add_differences].
  - cbn. rewrite !app_nil_r. destruct m, h; reflexivity.
  - cbn [alloc_diff map length seq ids_from]. unfold linked at 1.
    destruct (dtype_eqb (d_type d) Unchanged) eqn:E; cbn [bind].
    + rewrite IH. cbn. rewrite app_length. cbn [length]. rewrite Nat.add_1_r, <- !app_assoc. reflexivity.
    + unfold add_diff, deref. cbn. rewrite nth_error_mid. cbn [bind]. rewrite update_app_mid. cbn.
      rewrite IH. cbn. rewrite app_length. cbn [length]. rewrite Nat.add_1_r, <- !app_assoc. reflexivity.
Qed.
Lemma add_parsed_hunk_ok m a b f ds :
  add_parsed_hunk m a b f ds =
  Ok (with_contents m
        (dm_hunks m ++ [mk_hunk a b f HNormal (seq (length (dm_store m)) (length ds))])
        (dm_diffs m ++ ids_from (length (dm_store m)) ds)
        (dm_store m ++ map linked ds)).
Proof. unfold add_parsed_hunk. rewrite add_differences_ok. reflexivity. Qed.

Lemma deref_ids n : forall ds st, length st = n ->
  forall post, deref_all (st ++ map linked ds ++ post) (ids_from n ds) =
  Ok (filter (fun d => negb (is_context d)) (map linked ds)).
Proof.
  intros ds. revert n. induction ds as [|d ds IH]; intros n st L post; [reflexivity|].
  cbn [map ids_from]. 
  assert (IC : is_context (linked d) = dtype_eqb (d_type d) Unchanged).
  { unfold linked, is_context. destruct (d_type d) eqn:E; cbn; rewrite ?E; reflexivity. }
  cbn [filter]. rewrite IC.
  specialize (IH (S n) (st ++ [linked d])). rewrite app_length in IH. cbn [length] in IH.
  specialize (IH ltac:(lia) post). rewrite <- app_assoc in IH. cbn [app] in IH.
  destruct (dtype_eqb (d_type d) Unchanged) eqn:E; cbn [negb]; [exact IH|].
  cbn [deref_all]. unfold deref at 1. subst n. cbn [app]. rewrite nth_error_mid. cbn [bind].
  rewrite IH. reflexivity.
Qed.
Lemma deref_seq_mid (pre ds post : list difference) :
  deref_all (pre ++ ds ++ post) (seq (length pre) (length ds)) = Ok ds.
Proof.
  revert pre. induction ds as [|d ds IH]; intros pre; [reflexivity|].
  cbn [length seq deref_all]. unfold deref at 1. cbn [app]. rewrite nth_error_mid. cbn [bind].
  specialize (IH (pre ++ [d])). rewrite app_length in IH. cbn [length] in IH.
  rewrite Nat.add_1_r, <- app_assoc in IH. cbn [app] in IH. rewrite IH. reflexivity.
Qed.
Lemma ids_from_range n ds i : In i (ids_from n ds) -> (n <= i < n + length ds)%nat.
Proof.
  revert n. induction ds as [|d ds IH]; intros n; cbn; [intros []|].
  destruct (dtype_eqb _ _); cbn; [intros H; apply IH in H; lia|].
  intros [<-|H]; [lia|]. apply IH in H. lia.
Qed.
Lemma ids_from_nodup n ds : NoDup (ids_from n ds).
Proof.
  revert n. induction ds as [|d ds IH]; intros n; cbn; [constructor|].
  destruct (dtype_eqb _ _); [apply IH|]. constructor; [|apply IH].
  intros H. apply ids_from_range in H. lia.
Qed.
