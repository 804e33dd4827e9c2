(** Properties C05-C12: edit distance tables, markers, string equality. *)
From Coq Require Import String.
From Verif Require Import Base Lev Diff SpecEdit SpecInline PLevTable PLevWalk PLev.

(** C05 *)
Theorem C05_char_table_is_levenshtein_distance :
  forall t a b, (area a b <= limit)%N ->
  exists d t', create_table t (string_pair a b) = Ok (d, t') /\ is_distance true a b d.
Proof. exact char_table. Qed.
Print Assumptions C05_char_table_is_levenshtein_distance.
Example C05_example :
  (area (lit "kitten") (lit "sitting") <= limit)%N /\
  match create_table new_table (string_pair (lit "kitten") (lit "sitting")) with
  | Ok (d, _) => d = 3 | _ => False end.
Proof. split; [discriminate|vm_compute; reflexivity]. Qed.

(** C06 *)
Theorem C06_line_table_is_indel_distance :
  forall qhash t a b, (area a b <= limit)%N ->
  exists d t', create_table t (lines_pair qhash a b) = Ok (d, t') /\ is_distance false a b d.
Proof. exact line_table. Qed.
Print Assumptions C06_line_table_is_indel_distance.
Theorem C06_indel_distance_is_lcs :
  forall (a b : list str) d, is_distance false a b d ->
  (exists l, subseq l a /\ subseq l b /\ d + 2 * length l = length a + length b) /\
  (forall l, subseq l a -> subseq l b -> d + 2 * length l <= length a + length b).
Proof. exact distance_lcs. Qed.
Print Assumptions C06_indel_distance_is_lcs.
Example C06_example :
  (* a constant hash: every pair of lines collides *)
  match create_table new_table (lines_pair (fun _ => 0%N) [lit "a"; lit "b"; lit "c"] [lit "b"; lit "x"; lit "c"; lit "d"]) with
  | Ok (d, _) => d = 3 | _ => False end.
Proof. vm_compute. reflexivity. Qed.

(** C07, C08: every changed line pair of every difference. *)
Theorem C07_C08_inline_markers :
  forall d,
  (forall s, In s (d_slines d) -> ds_markers s = []) ->
  (forall s, In s (d_dlines d) -> ds_markers s = []) ->
  (forall i s e, nth_error (d_slines d) i = Some s -> nth_error (d_dlines d) i = Some e -> no_wrap s e) ->
  exists sl dl, determine_inline d = Ok (set_lines sl dl d) /\
    Forall2 same_text (d_slines d) sl /\ Forall2 same_text (d_dlines d) dl /\
    ((d_type d <> Change \/ length (d_slines d) <> length (d_dlines d)) ->
       sl = d_slines d /\ dl = d_dlines d) /\
    forall i s e, nth_error sl i = Some s -> nth_error dl i = Some e ->
      d_type d = Change -> length (d_slines d) = length (d_dlines d) ->
      ((area (ds_string s) (ds_string e) <= limit)%N ->
         marked_pair (ds_string s) (ds_string e) (ds_markers s) (ds_markers e)) /\
      ((limit < area (ds_string s) (ds_string e))%N -> ds_markers s = [] /\ ds_markers e = []).
Proof. exact determine_inline_ok. Qed.
Print Assumptions C07_C08_inline_markers.
Definition C07_diff : difference :=
  add_destination_line (lit "the fat cat sat!") (add_source_line (lit "the cat sat on") (new_diff 1 1 Change)).
Example C07_example :
  (forall s, In s (d_slines C07_diff) -> ds_markers s = []) /\
  (forall s, In s (d_dlines C07_diff) -> ds_markers s = []) /\
  (forall i s e, nth_error (d_slines C07_diff) i = Some s -> nth_error (d_dlines C07_diff) i = Some e -> no_wrap s e) /\
  match determine_inline C07_diff with
  | Ok d => map ds_markers (d_dlines d) =
            [[mk_marker MStart 4; mk_marker MEnd 5; mk_marker MStart 8; mk_marker MEnd 9;
              mk_marker MStart 12; mk_marker MEnd 16]] /\
            map (fun l => plain_text (ds_markers l) (ds_string l)) (d_slines d) = [lit "the at at "]
  | _ => False end.
Proof.
  split; [|split; [|split]].
  - intros s [<-|[]]. reflexivity.
  - intros s [<-|[]]. reflexivity.
  - intros [|i] s e H1 H2; [|destruct i; discriminate]. injection H1 as <-. injection H2 as <-.
    reflexivity.
  - vm_compute. split; reflexivity.
Qed.

(** C09: refuted as stated - a change at the very beginning has an End marker without a Start. *)
Definition C09_diff : difference :=
  add_destination_line (lit "xbc") (add_source_line (lit "abc") (new_diff 1 1 Change)).
Theorem C09_inline_markers_paired_refuted :
  exists d d', d_type d = Change /\ determine_inline d = Ok d' /\
    exists s, In s (d_slines d') /\ ~ paired (ds_markers s) (length (ds_string s)).
Proof.
  exists C09_diff.
  destruct (determine_inline C09_diff) as [d'| |] eqn:E; [|vm_compute in E; discriminate E|vm_compute in E; discriminate E].
  exists d'. split; [reflexivity|]. split; [reflexivity|].
  vm_compute in E. injection E as <-. eexists. split; [left; reflexivity|]. cbn. tauto.
Qed.
Print Assumptions C09_inline_markers_paired_refuted.

(** C10 *)
Theorem C10_line_markers_minimal_script :
  forall qhash t a b, (area a b <= limit)%N ->
  exists d t' m1 m2, create_table t (lines_pair qhash a b) = Ok (d, t') /\
    create_markers t' (lines_pair qhash a b) [] [] = Ok (m1, m2) /\
    is_distance false a b d /\
    paired m1 (length a) /\ paired m2 (length b) /\
    plain_text m1 a = plain_text m2 b /\
    changed_count m1 a + changed_count m2 b = d.
Proof. exact line_markers. Qed.
Print Assumptions C10_line_markers_minimal_script.
Example C10_example :
  let a := [lit "a"; lit "b"; lit "c"; lit "d"] in
  let b := [lit "b"; lit "x"; lit "y"; lit "d"; lit "e"] in
  (area a b <= limit)%N /\
  (do r <- create_table new_table (lines_pair (fun s => N.of_nat (length s)) a b);
   create_markers (snd r) (lines_pair (fun s => N.of_nat (length s)) a b) [] []) =
  Ok ([mk_marker MStart 0; mk_marker MEnd 1; mk_marker MStart 2; mk_marker MEnd 3],
      [mk_marker MStart 1; mk_marker MEnd 3; mk_marker MStart 4; mk_marker MEnd 5]).
Proof. split; [discriminate|vm_compute; reflexivity]. Qed.

(** C11 *)
Theorem C11_oversize_pairs_rejected :
  forall t s d, (limit < area (ds_string s) (ds_string d) < 4294967296)%N ->
  inline_line t s d = Ok (t, s, d).
Proof. exact inline_line_rejected. Qed.
Print Assumptions C11_oversize_pairs_rejected.
Theorem C11_wraparound_is_out_of_bounds :
  forall t a b, (t_size t <= limit)%N ->
  (4294967296 <= area a b)%N -> (area a b mod 4294967296 <= limit)%N ->
  exists why, create_table t (string_pair a b) = UB why.
Proof. exact wrap_ub. Qed.
Print Assumptions C11_wraparound_is_out_of_bounds.
Example C11_example :
  let a := repeat SP (N.to_nat 65535) in
  (t_size new_table <= limit)%N /\ (4294967296 <= area a a)%N /\ (area a a mod 4294967296 <= limit)%N.
Proof. vm_compute. repeat split; discriminate. Qed.
Example C11_example_reject :
  let a := repeat SP (N.to_nat 5000) in (limit < area a a < 4294967296)%N.
Proof. vm_compute. split; reflexivity. Qed.

(** C12 *)
Theorem C12_string_equality_exact :
  forall a b, built a -> built b -> (ds_eq a b = true <-> ds_string a = ds_string b).
Proof. exact ds_eq_ok. Qed.
Print Assumptions C12_string_equality_exact.
Example C12_example :
  built (ds_set_string (lit "b") (new_ds (lit "a"))) /\
  ds_eq (ds_set_string (lit "b") (new_ds (lit "a"))) (new_ds (lit "b")) = true /\
  ds_eq (new_ds (lit "a")) (new_ds (lit "b")) = false.
Proof. split; [repeat constructor|]. vm_compute. auto. Qed.
(** A new string has the text it was built from, no conflict text and no markers; each setter sets its part and leaves the
    others. *)
Theorem C12_parts_of_a_string :
  (forall s, ds_string (new_ds s) = s /\ ds_conflict (new_ds s) = [] /\ ds_markers (new_ds s) = []) /\
  (forall s d, ds_string (ds_set_string s d) = s /\ ds_conflict (ds_set_string s d) = ds_conflict d /\ ds_markers (ds_set_string s d) = ds_markers d) /\
  (forall s d, ds_string (ds_set_conflict s d) = ds_string d /\ ds_conflict (ds_set_conflict s d) = s /\ ds_markers (ds_set_conflict s d) = ds_markers d) /\
  (forall ms d, ds_string (ds_set_markers ms d) = ds_string d /\ ds_conflict (ds_set_markers ms d) = ds_conflict d /\ ds_markers (ds_set_markers ms d) = ms).
Proof. repeat split. Qed.
Print Assumptions C12_parts_of_a_string.
