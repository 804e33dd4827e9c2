(** The project's own unit tests (tests/levenshteintest.cpp, tests/interactivedifftest.cpp), run on the model. They show that
    the model computes what the code computes on these inputs; the theorems are in the Props files. *)
From Coq Require Import String.
From Verif Require Import Base QtStr Lev Diff Save LinesChanged Parser SpecHistory.
Open Scope Z_scope.

Definition ln (s : string) : str := lit s ++ [NL].
(** The one model of a diff that is not malformed. *)
Definition the_model (patch : list str) : res dmodel :=
  do p <- parse (fun l => l) patch;
  match po_models p with
  | Some [m] => if po_malformed p then UB "malformed" else Ok m
  | _ => UB "not one model"
  end.
Definition differences_of (m : dmodel) : res (list difference) := deref_all (dm_store m) (dm_diffs m).
Definition edited (patch : list str) (applied : bool) (old new : list str) (line : Z) : res (list difference) :=
  do m <- the_model patch;
  do m <- apply_all m applied;
  do r <- lines_changed (fun _ => 0%N) m old new line;
  differences_of (fst (fst r)).
Definition contents (ds : list difference) (k : nat) : option (list str * list str) :=
  option_map (fun d => (texts (d_slines d), texts (d_dlines d))) (nth_error ds k).
Definition numbers (ds : list difference) (k : nat) : option (Z * Z) :=
  option_map (fun d => (d_src d, d_track d)) (nth_error ds k).
Definition after (patch : list str) (ops : list op) : res (list (Z * Z * bool)) :=
  do m <- the_model patch;
  do m <- run m ops;
  do ds <- differences_of m;
  Ok (map (fun d => (d_src d, d_track d, d_applied d)) ds).
Ltac confirm := eexists; split; [vm_compute; reflexivity|repeat split; vm_compute; reflexivity].

(** * levenshteintest.cpp *)
Definition markers (p : seqpair) : res (list marker * list marker) :=
  do t <- create_table new_table p; create_markers (snd t) p [] [].
Definition St (n : nat) := mk_marker MStart n.
Definition En (n : nat) := mk_marker MEnd n.
Example first_empty : markers (string_pair (lit "12345") []) = Ok ([St 0; En 5], [St 0; En 0]).
Proof. vm_compute. reflexivity. Qed.
Example second_empty : markers (string_pair [] (lit "12345")) = Ok ([St 0; En 0], [St 0; En 5]).
Proof. vm_compute. reflexivity. Qed.
Example difference_strings : markers (string_pair (lit "aaabcddefghik") (lit "aabcefghijk")) = Ok ([St 2; En 3; St 5; En 7], [St 9; En 10]).
Proof. vm_compute. reflexivity. Qed.
Example string_lists :
  markers (lines_pair (fun _ => 0%N) [lit "delete1"; lit "line1"; lit "line2"; lit "line3"; lit "delete2"; lit "delete3"; lit "line4"]
             [lit "line1"; lit "line2"; lit "line3"; lit "insert1"; lit "line4"; lit "insert2"]) =
  Ok ([St 0; En 1; St 4; En 6], [St 3; En 4; St 5; En 6]).
Proof. vm_compute. reflexivity. Qed.
Example smth :
  markers (lines_pair (fun _ => 0%N) [ln "insert1"; ln "newline1"; ln "newline2"; ln "insert2"] [ln "delete1"; ln "efgh"; ln "delete2"]) =
  Ok ([St 0; En 4], [St 0; En 3]).
Proof. vm_compute. reflexivity. Qed.

(** * interactivedifftest.cpp *)
Definition edited_new (ds : list difference) (old new : list str) (line : Z) : res (list difference) :=
  let m := fold_left (fun m d => let '(m, i) := alloc_diff m (set_connected true d) in with_contents m (dm_hunks m) (dm_diffs m ++ [i]) (dm_store m)) ds (new_model [] []) in
  do r <- lines_changed (fun _ => 0%N) m old new line;
  differences_of (fst (fst r)).
Definition diff_with (src dst : Z) (sl dl : list str) (applied : bool) : difference :=
  apply_quietly applied (set_lines (map new_ds sl) (map new_ds dl) (new_diff src dst Unchanged)).
(** testOneLineChange, testSameLine. *)
Example one_line_change : exists ds, edited_new [] [ln "oldline"] [ln "newline"] 2 = Ok ds /\ length ds = 1%nat /\
  contents ds 0 = Some ([ln "oldline"], [ln "newline"]) /\ option_map d_type (nth_error ds 0) = Some Change.
Proof. confirm. Qed.
Example same_line : exists ds, edited_new [] [ln "oldline1"; ln "oldline2"] [ln "oldline2"] 2 = Ok ds /\ length ds = 1%nat /\
  contents ds 0 = Some ([ln "oldline1"], []) /\ option_map d_type (nth_error ds 0) = Some Delete.
Proof. confirm. Qed.
(** testAppliedTouch: the unapplied neighbours stay. *)
Example applied_touch : exists ds,
  edited_new [diff_with 2 2 [lit "delete1"] [lit "insert1"] false; diff_with 4 4 [lit "delete2"] [lit "insert2"] false] [ln "oldline"] [ln "newline"] 3 = Ok ds /\
  length ds = 3%nat /\ contents ds 0 = Some ([lit "delete1"], [lit "insert1"]) /\ contents ds 2 = Some ([lit "delete2"], [lit "insert2"]).
Proof. confirm. Qed.
(** testAppliedIntersect. *)
Example applied_intersect : exists ds,
  edited_new [diff_with 2 2 [lit "delete1"; lit "delete2"] [lit "insert1"; lit "insert2"] false;
              diff_with 5 5 [lit "delete3"; lit "delete4"] [lit "insert3"; lit "insert4"] false]
    [ln "delete2"; ln "oldline1"; ln "delete3"] [ln "newline1"] 3 = Ok ds /\
  length ds = 1%nat /\ numbers ds 0 = Some (3, 3) /\ option_map d_applied (nth_error ds 0) = Some true /\
  contents ds 0 = Some ([ln "delete2"; ln "oldline1"; ln "delete3"], [ln "newline1"]).
Proof. confirm. Qed.
(** testExistingAndApplied. *)
Example existing_and_applied : exists ds,
  edited_new [diff_with 2 2 [lit "delete1"] [lit "insert1"] true; diff_with 3 3 [lit "delete2"] [lit "insert2"] false] [ln "delete1"] [ln "newline1"] 2 = Ok ds /\
  length ds = 2%nat /\ option_map d_applied (nth_error ds 0) = Some true /\ option_map d_applied (nth_error ds 1) = Some false.
Proof. confirm. Qed.
(** testOneLineDeletionUnapplied. *)
Example one_line_deletion_unapplied : exists ds,
  edited_new [diff_with 1 1 [ln "delete1"] [] false] [ln "delete1"] [ln "newline1"] 1 = Ok ds /\
  length ds = 1%nat /\ contents ds 0 = Some ([ln "delete1"], [ln "newline1"]).
Proof. confirm. Qed.
(** testDifferenceContents, row Merge adjacent differences. *)
Example difference_contents_1 : exists ds,
  edited [ln "--- file1	2011-01-01 20:23:45.000000000 +0300"; ln "+++ file2	2011-01-01 20:24:02.000000000 +0300"; ln "@@ -1,5 +1,5 @@"; ln " abcd"; ln "-delete1"; ln "+insert1"; ln " efgh"; ln "-delete2"; ln "+insert2"; ln " ijkl"]
    true [ln "efgh"] [ln "newline1"; ln "newline2"] 3 = Ok ds /\ length ds = 1%nat /\
  contents ds 0 = Some ([ln "delete1"; ln "efgh"; ln "delete2"], [ln "insert1"; ln "newline1"; ln "newline2"; ln "insert2"]).
Proof. confirm. Qed.
(** testDifferenceContents, row Append multiline. *)
Example difference_contents_2 : exists ds,
  edited [ln "--- file1	2011-01-01 20:23:45.000000000 +0300"; ln "+++ file2	2011-01-01 20:24:02.000000000 +0300"; ln "@@ -1,4 +1,4 @@"; ln " abcd"; ln "-delete1"; ln "-delete2"; ln "+insert1"; ln "+insert2"; ln " efgh"]
    true [ln "efgh"] [ln "newline1"] 4 = Ok ds /\ length ds = 1%nat /\
  contents ds 0 = Some ([ln "delete1"; ln "delete2"; ln "efgh"], [ln "insert1"; ln "insert2"; ln "newline1"]).
Proof. confirm. Qed.
(** testDifferenceContents, row Revert existing difference. *)
Example difference_contents_3 : exists ds,
  edited [ln "--- file1	2011-01-01 20:23:45.000000000 +0300"; ln "+++ file2	2011-01-01 20:24:02.000000000 +0300"; ln "@@ -1,3 +1,3 @@"; ln " abcd"; ln "-delete1"; ln "+insert1"; ln " efgh"]
    true [ln "insert1"] [ln "delete1"] 2 = Ok ds /\ length ds = 0%nat.
Proof. confirm. Qed.
(** testDifferenceContents, row Revert deletion. *)
Example difference_contents_4 : exists ds,
  edited [ln "--- file1	2011-01-01 20:23:45.000000000 +0300"; ln "+++ file2	2011-01-01 20:24:02.000000000 +0300"; ln "@@ -1,3 +1,2 @@"; ln " abcd"; ln "-delete1"; ln " efgh"]
    true [ln "abcd"] [ln "abcd"; ln "delete1"] 1 = Ok ds /\ length ds = 0%nat.
Proof. confirm. Qed.
(** testDifferenceContents, row Partial reversion. *)
Example difference_contents_5 : exists ds,
  edited [ln "--- file1	2011-01-01 20:23:45.000000000 +0300"; ln "+++ file2	2011-01-01 20:24:02.000000000 +0300"; ln "@@ -1,4 +1,5 @@"; ln " abcd"; ln "-delete1"; ln "-delete2"; ln "+insert1"; ln "+insert2"; ln "+insert3"; ln " efgh"]
    true [ln "insert2"] [ln "delete2"] 3 = Ok ds /\ length ds = 2%nat /\
  contents ds 0 = Some ([ln "delete1"], [ln "insert1"]) /\
  contents ds 1 = Some ([], [ln "insert3"]).
Proof. confirm. Qed.
(** testDifferenceContents, row First inside. *)
Example difference_contents_6 : exists ds,
  edited [ln "--- file1	2011-01-01 20:23:45.000000000 +0300"; ln "+++ file2	2011-01-01 20:24:02.000000000 +0300"; ln "@@ -1,4 +1,4 @@"; ln " abcd"; ln "-delete1"; ln "-delete2"; ln "+insert1"; ln "+insert2"; ln " efgh"]
    true [ln "abcd"; ln "insert1"; ln "insert2"; ln "efgh"] [ln "newline1"; ln "newline2"] 1 = Ok ds /\ length ds = 1%nat /\
  contents ds 0 = Some ([ln "abcd"; ln "delete1"; ln "delete2"; ln "efgh"], [ln "newline1"; ln "newline2"]).
Proof. confirm. Qed.
(** testDifferenceContents, row First intersects. *)
Example difference_contents_7 : exists ds,
  edited [ln "--- file1	2011-01-01 20:23:45.000000000 +0300"; ln "+++ file2	2011-01-01 20:24:02.000000000 +0300"; ln "@@ -1,4 +1,4 @@"; ln " abcd"; ln "-delete1"; ln "-delete2"; ln "+insert1"; ln "+insert2"; ln " efgh"]
    true [ln "insert2"; ln "efgh"] [ln "newline1"; ln "newline2"] 3 = Ok ds /\ length ds = 1%nat /\
  contents ds 0 = Some ([ln "delete1"; ln "delete2"; ln "efgh"], [ln "insert1"; ln "newline1"; ln "newline2"]).
Proof. confirm. Qed.
(** testDifferenceContents, row Replace empty line. *)
Example difference_contents_8 : exists ds,
  edited [ln "--- file1	2011-01-01 20:23:45.000000000 +0300"; ln "+++ file2	2011-01-01 20:24:02.000000000 +0300"; ln "@@ -1,2 +1,3 @@"; ln " abcd"; ln "+"; ln " efgh"]
    true [ln ""] [ln "a"] 2 = Ok ds /\ length ds = 1%nat /\
  contents ds 0 = Some ([], [ln "a"]).
Proof. confirm. Qed.
(** testDifferenceContents, row Replace line in source. *)
Example difference_contents_9 : exists ds,
  edited [ln "--- file1	2011-01-01 20:23:45.000000000 +0300"; ln "+++ file2	2011-01-01 20:24:02.000000000 +0300"; ln "@@ -1,3 +1,3 @@"; ln " abcd"; ln "+insert1"; ln "+insert2"; ln "+insert3"; ln "+insert4"; ln "+insert5"; ln " efgh"; ln "@@ -10,3 +15,3 @@"; ln " abcd"; ln "-delete1"; ln "+insert1"; ln " efgh"]
    false [ln "delete1"] [ln "newline1"] 11 = Ok ds /\ length ds = 2%nat /\
  contents ds 1 = Some ([ln "delete1"], [ln "newline1"]).
Proof. confirm. Qed.
(** testLineNumbers, row Update existing line numbers. *)
Example line_numbers_1 : exists ds,
  edited [ln "--- file1	2011-01-01 20:23:45.000000000 +0300"; ln "+++ file2	2011-01-01 20:24:02.000000000 +0300"; ln "@@ -1,4 +1,6 @@"; ln " abcd"; ln "-delete1"; ln "-delete2"; ln "+insert1"; ln "+insert2"; ln "+insert3"; ln "+insert4"; ln " efgh"; ln "@@ -15,3 +17,4 @@"; ln " abcd"; ln "-delete1"; ln "+insert1"; ln "+insert2"; ln " efgh"]
    true [ln "oldline1"] [ln "newline1"; ln "newline2"; ln "newline2"] 10 = Ok ds /\ length ds = 3%nat /\
  numbers ds 0 = Some (2, 2) /\
  numbers ds 2 = Some (16, 20).
Proof. confirm. Qed.
(** testLineNumbers, row Last edit line number. *)
Example line_numbers_2 : exists ds,
  edited [ln "--- file1	2011-01-01 20:23:45.000000000 +0300"; ln "+++ file2	2011-01-01 20:24:02.000000000 +0300"; ln "@@ -1,4 +1,6 @@"; ln " abcd"; ln "-delete1"; ln "-delete2"; ln "+insert1"; ln "+insert2"; ln "+insert3"; ln "+insert4"; ln " efgh"; ln "@@ -15,3 +17,4 @@"; ln " abcd"; ln "-delete1"; ln "+insert1"; ln "+insert2"; ln " efgh"]
    true [ln "oldline1"] [ln "newline1"] 25 = Ok ds /\ length ds = 3%nat /\
  numbers ds 2 = Some (22, 25).
Proof. confirm. Qed.
(** testLineNumbers, row Middle edit line number. *)
Example line_numbers_3 : exists ds,
  edited [ln "--- file1	2011-01-01 20:23:45.000000000 +0300"; ln "+++ file2	2011-01-01 20:24:02.000000000 +0300"; ln "@@ -1,4 +1,6 @@"; ln " abcd"; ln "-delete1"; ln "-delete2"; ln "+insert1"; ln "+insert2"; ln "+insert3"; ln "+insert4"; ln " efgh"; ln "@@ -15,3 +17,4 @@"; ln " abcd"; ln "-delete1"; ln "+insert1"; ln "+insert2"; ln " efgh"]
    true [ln "oldline1"] [ln "newline1"] 13 = Ok ds /\ length ds = 3%nat /\
  numbers ds 1 = Some (11, 13).
Proof. confirm. Qed.
(** testLineNumbers, row First edit line number. *)
Example line_numbers_4 : exists ds,
  edited [ln "--- file1	2011-01-01 20:23:45.000000000 +0300"; ln "+++ file2	2011-01-01 20:24:02.000000000 +0300"; ln "@@ -10,4 +10,4 @@"; ln " abcd"; ln "-delete1"; ln "-delete2"; ln "+insert1"; ln "+insert2"; ln " efgh"]
    true [ln "oldline1"] [ln "newline1"] 5 = Ok ds /\ length ds = 2%nat /\
  numbers ds 0 = Some (5, 5).
Proof. confirm. Qed.
(** testLineNumbers, row Partial reversion. *)
Example line_numbers_5 : exists ds,
  edited [ln "--- file1	2011-01-01 20:23:45.000000000 +0300"; ln "+++ file2	2011-01-01 20:24:02.000000000 +0300"; ln "@@ -1,3 +1,4 @@"; ln " abcd"; ln "-delete1"; ln "+insert1"; ln "+insert2"; ln " efgh"; ln "@@ -11,4 +12,5 @@"; ln " abcd"; ln "-delete2"; ln "-delete3"; ln "+insert3"; ln "+insert4"; ln "+insert5"; ln " efgh"; ln "@@ -21,4 +23,3 @@"; ln " abcd"; ln "-delete4"; ln "-delete5"; ln "+insert6"; ln " efgh"]
    true [ln "insert4"] [ln "delete2"] 14 = Ok ds /\ length ds = 4%nat /\
  numbers ds 0 = Some (2, 2) /\
  numbers ds 1 = Some (12, 13) /\
  numbers ds 2 = Some (13, 15) /\
  numbers ds 3 = Some (22, 24).
Proof. confirm. Qed.
(** testApplyUnapply. *)
Definition apply_patch : list str := [ln "--- file1	2011-01-01 20:23:45 +0300"; ln "+++ file2	2011-01-01 20:24:02 +0300"; ln "@@ -1,3 +1,4 @@"; ln " line1"; ln "-delete1"; ln "+insert1"; ln "+insert2"; ln " line2"; ln "@@ -11,4 +12,5 @@"; ln " line3"; ln "-delete2"; ln "-delete3"; ln "+insert3"; ln "+insert4"; ln "+insert5"; ln " line4"; ln "@@ -21,4 +23,2 @@"; ln " line5"; ln "-delete4"; ln "-delete5"; ln " line6"; ln "@@ -31,3 +31,3 @@"; ln " line7"; ln "-delete6"; ln "+insert6"; ln " line8"].
Example apply_unapply :
  after apply_patch [ApplyAll true] = Ok [(2, 2, true); (12, 13, true); (22, 24, true); (32, 32, true)] /\
  after apply_patch [ApplyAll true; ApplyAll false] = Ok [(2, 2, false); (12, 12, false); (22, 22, false); (32, 32, false)] /\
  after apply_patch [ApplyAll true; ApplyAll false; ApplyDirect 1 true] = Ok [(2, 2, false); (12, 12, true); (22, 23, false); (32, 33, false)] /\
  after apply_patch [ApplyAll true; ApplyAll false; ApplyDirect 1 true; ApplyDirect 1 true] = Ok [(2, 2, false); (12, 12, true); (22, 23, false); (32, 33, false)] /\
  after apply_patch [ApplyAll true; ApplyAll false; ApplyDirect 1 true; ApplyDirect 1 true; ApplyDirect 2 true] = Ok [(2, 2, false); (12, 12, true); (22, 23, true); (32, 31, false)] /\
  after apply_patch [ApplyAll true; ApplyAll false; ApplyDirect 1 true; ApplyDirect 1 true; ApplyDirect 2 true; ApplyAll true] = Ok [(2, 2, true); (12, 13, true); (22, 24, true); (32, 32, true)] /\
  after apply_patch [ApplyAll true; ApplyAll false; ApplyDirect 1 true; ApplyDirect 1 true; ApplyDirect 2 true; ApplyAll true; ApplyAll true] = Ok [(2, 2, true); (12, 13, true); (22, 24, true); (32, 32, true)].
Proof. vm_compute. repeat split. Qed.
(** testContextDiff, 1. *)
Example context_diff_1 : after [ln "commit 7377fcc682e85ef9784adb2a2da2c8c6756f9018 (HEAD, KDE/4.11)"; ln "Author:     Dr. Chocholousek <bla@zin.ec>"; ln "AuthorDate: Sat Jan 25 17:30:01 2014 +0100"; ln ""; ln "    Fake diff."; ln ""; ln "diff --git a/libdiff2/diffmodel.cpp b/libdiff2/diffmodel.cpp"; ln "new file mode 100644"; ln "index a42e82d..a8da0c9"; ln "*** a/libdiff2/diffmodel.cpp"; ln "--- b/libdiff2/diffmodel.cpp"; ln "*************** DiffModel::DiffModel() :"; ln "*** 58,64 ****"; ln "  	m_sourceFile(  ),"; ln "  	m_destinationFile(  ),"; ln "  	m_sourceTimestamp(  ),"; ln "! 	m_destinationTimestamp(  ),"; ln "  	m_sourceRevision(  ),"; ln "  	m_destinationRevision(  ),"; ln "  	m_appliedCount( 0 ),"; ln "--- 58,64 ----"; ln "  	m_sourceFile(  ),"; ln "  	m_destinationFile(  ),"; ln "  	m_sourceTimestamp(  ),"; ln "! 	m_destinationTimestamp( ""doh"" ),"; ln "  	m_sourceRevision(  ),"; ln "  	m_destinationRevision(  ),"; ln "  	m_appliedCount( 0 ),"; ln "*************** void DiffModel::splitSourceInPathAndFile"; ln "*** 84,89 ****"; ln "--- 84,91 ----"; ln "  	if( ( pos = m_source.lastIndexOf( ""/"" ) ) >= 0 )"; ln "  		m_sourcePath = m_source.mid( 0, pos+1 );"; ln "  "; ln "+ 	add_this;"; ln "+ "; ln "  	if( ( pos = m_source.lastIndexOf( ""/"" ) ) >= 0 )"; ln "  		m_sourceFile = m_source.mid( pos+1, m_source.length() - pos );"; ln "  	else"]
  [ApplyAll true] = Ok [(61, 61, true); (87, 87, true)].
Proof. vm_compute. reflexivity. Qed.
(** testContextDiff, 2. *)
Example context_diff_2 : after [ln "*** a/libdiff2/diffmodel.cpp"; ln "--- b/libdiff2/diffmodel.cpp"; ln "***************"; ln "*** 55,60 **** DiffModel::DiffModel() :"; ln "--- 55,61 ----"; ln "  	m_destination(  ),"; ln "  	m_sourcePath(  ),"; ln "  	m_destinationPath(  ),"; ln "+ 	m_hoh (  );"; ln "  	m_sourceFile(  ),"; ln "  	m_destinationFile(  ),"; ln "  	m_sourceTimestamp(  ),"]
  [ApplyAll true] = Ok [(58, 58, true)].
Proof. vm_compute. reflexivity. Qed.
(** testNormalDiff. *)
Example normal_diff : after [ln "1c1"; ln "< a"; ln "---"; ln "> b"] [ApplyAll true] = Ok [(1, 1, true)].
Proof. vm_compute. reflexivity. Qed.
