{
 "claims": [
  {
   "property": "C05",
   "status": "proved",
   "theorems": [
    "C05_char_table_is_levenshtein_distance"
   ],
   "note": "For any prior table object and any two strings within the limit; no UB, result is the minimum over an inductive edit-script relation."
  },
  {
   "property": "C06",
   "status": "proved",
   "theorems": [
    "C06_line_table_is_indel_distance",
    "C06_indel_distance_is_lcs"
   ],
   "note": "For any hash function."
  },
  {
   "property": "C07",
   "status": "proved",
   "theorems": [
    "C07_C08_inline_markers"
   ],
   "note": "Over whole differences, table object reused between lines; markers read the way the viewer paints them."
  },
  {
   "property": "C08",
   "status": "proved",
   "theorems": [
    "C07_C08_inline_markers"
   ],
   "note": "Fields mp_ordered1/2 of marked_pair."
  },
  {
   "property": "C09",
   "status": "partial",
   "theorems": [
    "C09_inline_markers_paired_refuted",
    "C09_pairs_but_for_the_first_range_partial"
   ],
   "note": "False of the code: a replacement at the very beginning of a line gets an End without a Start, or an End too many. Proved for all other ranges of all lines of all differences (SpecMarkers.v says which lists remain); line markers are paired (C10)."
  },
  {
   "property": "C10",
   "status": "proved",
   "theorems": [
    "C10_line_markers_minimal_script"
   ],
   "note": ""
  },
  {
   "property": "C11",
   "status": "proved",
   "theorems": [
    "C11_oversize_pairs_rejected",
    "C11_wraparound_is_out_of_bounds"
   ],
   "note": ""
  },
  {
   "property": "C12",
   "status": "proved",
   "theorems": [
    "C12_string_equality_exact",
    "C12_parts_of_a_string"
   ],
   "note": "All strings built from a QString with the setters (the default constructor leaves the hash uninitialised and is excluded)."
  },
  {
   "property": "C28",
   "status": "proved",
   "theorems": [
    "C28_tracking_after_any_history",
    "C28_tracking_is_position"
   ],
   "note": ""
  },
  {
   "property": "C29",
   "status": "proved",
   "theorems": [
    "C29_applied_count",
    "C29_direct_apply_not_counted_refuted"
   ],
   "note": "Histories through the model's own functions; the second theorem shows that Difference::apply called directly is not counted."
  },
  {
   "property": "C30",
   "status": "proved",
   "theorems": [
    "C30_unsaved_after_any_history"
   ],
   "note": ""
  },
  {
   "property": "C31",
   "status": "proved",
   "theorems": [
    "C31_order_irrelevant",
    "C31_unapply_all_restores"
   ],
   "note": ""
  },
  {
   "property": "C32",
   "status": "proved",
   "theorems": [
    "C32_edit_keeps_patch",
    "C32_any_sequence_of_edits"
   ],
   "note": "Within the line table limit and with lines shorter than 65535 characters."
  },
  {
   "property": "C33",
   "status": "proved",
   "theorems": [
    "C33_report_is_exact",
    "C33_removed_are_those_reached"
   ],
   "note": ""
  },
  {
   "property": "C34",
   "status": "proved",
   "theorems": [
    "C34_inserted_minimal_and_real",
    "C34_restoring_leaves_nothing",
    "C34_idle_edit"
   ],
   "note": ""
  },
  {
   "property": "C35",
   "status": "partial",
   "theorems": [
    "C32_edit_keeps_patch",
    "C35_edit_after_unapplied_refuted",
    "C35_edit_after_unapplied_ub_refuted",
    "C35_edit_of_any_size",
    "C35_oversize_edit_lost",
    "C35_oversize_edit_dropped"
   ],
   "note": "False of the code in general (two witnesses and a theorem that every oversize edit is dropped). C35_edit_of_any_size: for edits of every size up to 32 bits exactly when the result is right: the region fits into the table, or it is again as in the source. C32 proves it for unapplied differences that keep the line count or stay clear of the edit."
  },
  {
   "property": "C13",
   "status": "proved",
   "theorems": [
    "C13_no_newline_markers_folded",
    "C13_which_lists",
    "C13_first_line_marker_undefined",
    "C13_second_marker_erases_line",
    "C13_every_list"
   ],
   "note": "C13_every_list: what becomes of every list that does not begin with a marker. folded is an inductive specification; C13_which_lists says it covers every list whose markers each follow an ordinary line ending in its only newline; the last two theorems are the exceptions named in the property."
  },
  {
   "property": "C14",
   "status": "proved",
   "theorems": [
    "C14_generator_is_first_tell_tale"
   ],
   "note": ""
  },
  {
   "property": "C15",
   "status": "proved",
   "theorems": [
    "C15_parse_terminates"
   ],
   "note": "For every list of lines and every sort function."
  },
  {
   "property": "C20",
   "status": "proved",
   "theorems": [
    "C20_unified_differences_typed",
    "C20_context_differences_typed",
    "C20_normal_differences_typed",
    "C20_other_formats_limits"
   ],
   "note": "For every input of the three formats, malformed or not, all generators. C20_other_formats_limits: what holds for unified diffs only, with the two texts that show it."
  },
  {
   "property": "C21",
   "status": "proved",
   "theorems": [
    "C21_hunks_contiguous",
    "C21_ends_meet"
   ],
   "note": "All formats. For normal diffs the line numbers inside the (one-difference) hunk are trivially the hunk's."
  },
  {
   "property": "C22",
   "status": "proved",
   "theorems": [
    "C22_unified_lines_accounted_for"
   ],
   "note": "files_from relates every input line to a skipped line, header line or hunk line and gives the exact malformed flag."
  },
  {
   "property": "C25",
   "status": "proved",
   "theorems": [
    "C25_models_sorted"
   ],
   "note": "For any collation and any sort meeting the std::sort contract."
  },
  {
   "property": "C26",
   "status": "partial",
   "theorems": [
    "C26_malformed_reported_refuted",
    "C22_unified_lines_accounted_for"
   ],
   "note": "False of the code (a file header whose second line does not match stops parsing silently). C22_unified_lines_accounted_for gives exactly when the flag is set: an unexpected line right after some file's hunks; C97 does the same for context and normal diffs."
  },
  {
   "property": "C27",
   "status": "partial",
   "theorems": [
    "C27_parse_defined_refuted",
    "C27_parse_defined_on_safe_input_partial",
    "C27_undefined_exactly",
    "C27_readable_exactly"
   ],
   "note": "False of the code: five kinds of crashing input. C27_undefined_exactly: an exact characterisation (`unreadable`, SpecCrash.v) of the texts on which parsing is undefined, for all three programs and all formats; every other text is read. C27_parse_defined_on_safe_input_partial is a simple sufficient condition. Line numbers near the end of the int range are C77."
  },
  {
   "property": "C01",
   "status": "proved",
   "theorems": [
    "C01_split_lossless"
   ],
   "note": "Stated as an equivalence: split gives exactly the one list of lines that meets the specification."
  },
  {
   "property": "C02",
   "status": "proved",
   "theorems": [
    "C02_escaping_round_trips",
    "C02_escaped_form"
   ],
   "note": "For all paths. C02_escaped_form: what is written for each path (written_as: a backslash before backslashes and quotes; quotes around it exactly if there is a blank)."
  },
  {
   "property": "C03",
   "status": "proved",
   "theorems": [
    "C03_constructor_cuts_paths",
    "C03_renaming_cuts_paths",
    "C03_stale_directory"
   ],
   "note": "Any history of setSourceFile/setDestinationFile; the last theorem is the exception named in the property."
  },
  {
   "property": "C04",
   "status": "partial",
   "theorems": [
    "C04_depth_strips_components_refuted",
    "C04_what_depth_strips",
    "C04_depth_one_partial"
   ],
   "note": "False of the code: depth 0 drops the first character, depth 2 and more strip only one component. C04_what_depth_strips gives what every depth does; the claim holds for depth 1."
  },
  {
   "property": "C16",
   "status": "proved",
   "theorems": [
    "C16_unified_documents_read_back"
   ],
   "note": "Documents: SpecUnified.v (any files, hunks, runs, omitted and zero counts, missing final newlines, preambles). Body lines shorter than 65534 characters (the table of the inline markers has 16-bit-overflow-free sizes). Files come back as a permutation because std::sort orders the models; C25 gives that order. Example C16_example."
  },
  {
   "property": "C17",
   "status": "proved",
   "theorems": [
    "C17_recreated_text",
    "C17_recreate_after_parse_is_identity",
    "C17_one_file_fixed_point"
   ],
   "note": "Files in the order of the sorted models. C17_recreated_text says what becomes of every other well-formed document with time stamps and newline-terminated lines."
  },
  {
   "property": "C18",
   "status": "partial",
   "theorems": [
    "C18_recreated_diff_parses_refuted",
    "C18_recreated_diff_is_read_again_partial",
    "C18_what_is_read_again",
    "C18_without_stamps_nothing_is_read_again",
    "C17_recreate_after_parse_is_identity"
   ],
   "note": "False of the code: three small parseable diffs whose recreated text parses to nothing or to something else (no time stamp; empty side; missing newline). Proved for every unified document with time stamps and without missing newlines, whatever else is in it: the recreated text parses without complaint to the same files, hunks and lines; only the line number of a side without lines has grown by one. For documents with or without time stamps, file by file, it is proved exactly which files are read again (files with both stamps, up to the first file that lacks only the new one) and when the result is reported as malformed (a file without old stamp follows a file that is read); a diff as git writes it, without stamps, gives nothing and no complaint. Missing: documents with missing newlines, where it is false, and, for files without stamps, removed lines that begin with two dashes and a blank. C18_example, C18_mixed_example."
  },
  {
   "property": "C19",
   "status": "proved",
   "theorems": [
    "C19_recreated_header_counts_body"
   ],
   "note": "Every hunk, whatever its differences, with newline-terminated lines so that body lines can be counted in the text."
  },
  {
   "property": "C23",
   "status": "proved",
   "theorems": [
    "C23_normal_diff_read_back"
   ],
   "note": "SpecNormal.v is the specification of the documents. Newline-terminated lines: without final newline see C51."
  },
  {
   "property": "C51",
   "status": "partial",
   "theorems": [
    "C51_normal_missing_newline_refuted",
    "C51_context_missing_newline_refuted",
    "C51_normal_missing_newline_partial",
    "C51_context_missing_newline_partial",
    "C16_unified_documents_read_back"
   ],
   "note": "The two _partial theorems say exactly what is read of every normal diff (markers in the last command) and every context diff (any number of files with marked last hunks): SpecMissing.v. False of the code: the patterns of normal and context lines need the newline that the marker folding removed, so those lines are lost (the diff is reported as malformed). For unified diffs it holds: C16."
  },
  {
   "property": "C52",
   "status": "partial",
   "theorems": [
    "C52_normal_diff_of_files_refuted",
    "C52_normal_diff_of_files_read_but_malformed"
   ],
   "note": "The files are read exactly, but the diff is always reported as malformed: the search for a further header falls back to the first line. CVS normal diffs are not read at all."
  },
  {
   "property": "C24",
   "status": "proved",
   "theorems": [
    "C24_context_documents_read_back"
   ],
   "note": "SpecContext.v is the specification of the documents (both sides of a hunk have two lines or more: see C53; newline-terminated lines: see C51; without an Index line: see C54)."
  },
  {
   "property": "C53",
   "status": "partial",
   "theorems": [
    "C24_one_number_refuted",
    "C53_what_is_read_partial",
    "C53_silent_loss",
    "C24_context_documents_read_back"
   ],
   "note": "C53_what_is_read_partial says exactly what is read, and if it is reported as malformed, for every document of diff -c (SpecSmall.v). False of the code: the hunk header pattern wants two numbers on each side, and diff -c prints one for a side of no line or one line; the hunk and the rest of the document are lost, in most cases silently. Sides of two lines or more: C24."
  },
  {
   "property": "C54",
   "status": "partial",
   "theorems": [
    "C24_cvs_time_stamps_refuted",
    "C24_cvs_context_documents_read_partial"
   ],
   "note": "All but the time stamps is read exactly; the code takes group 3 of the CVS patterns (the revision) for the time stamp."
  },
  {
   "property": "C36",
   "status": "proved",
   "theorems": [
    "C36_blending_any_file",
    "C36_blending_completes"
   ],
   "note": "Any file for definedness and accounting of lines; any file that the hunks fit for completeness. SpecBlend.v is the specification; C36_example shows a model read from a diff that meets the hypotheses."
  },
  {
   "property": "C37",
   "status": "proved",
   "theorems": [
    "C37_save_outcome",
    "C37_saved_text_after_any_history",
    "C55_parse_blend_edit_save"
   ],
   "note": "Saves at any moment of any history, with any outcome of the file operations."
  },
  {
   "property": "C38",
   "status": "partial",
   "theorems": [
    "C38_failed_copy_reported_refuted",
    "C38_failed_save_reported_partial",
    "C38_save_all_stops"
   ],
   "note": "False of the code: a failed copy makes saveDestination() return true. Every other failure gives false, and every failure gives the error signal and keeps the model unsaved."
  },
  {
   "property": "C39",
   "status": "proved",
   "theorems": [
    "C39_recreated_diff_unchanged"
   ],
   "note": "Any model whose hunks are linked as the parser links them, any file."
  },
  {
   "property": "C55",
   "status": "proved",
   "theorems": [
    "C55_parse_blend_edit_save",
    "C55_every_two_files"
   ],
   "note": "End to end: text of the diff and text of the file in, saved text out. C55_every_two_files: any two different files (lines shorter than 65534 characters, line numbers that are ints) have such a document, so the theorem is about every pair of files. Examples C55_example, C55_computed and C55_two_files_example."
  },
  {
   "property": "C56",
   "status": "partial",
   "theorems": [
    "C56_saving_other_formats_refuted",
    "C56_context_saved_exactly",
    "C56_normal_saved_exactly",
    "C56_wanted_mixture",
    "C56_saved_for_any_file",
    "C37_save_outcome",
    "C55_parse_blend_edit_save"
   ],
   "note": "False of the code for normal and context diffs: their lines are kept without newline, and lines added by a normal diff are put one line too early. Proved: exactly what is written for every context diff and every normal diff of a file (it is never the wanted text for a context diff; for a normal diff exactly when nothing has to be written for any command), and for any diff and any file at all (C56_saved_for_any_file). For unified diffs the property holds: C55."
  },
  {
   "property": "C40",
   "status": "proved",
   "theorems": [
    "C40_next_difference_walks",
    "C40_previous_difference_walks",
    "C40_any_number_of_steps",
    "C40_overall_is_position"
   ],
   "note": "Any state that shows a view (SpecList.v); C42_after_opening_a_diff, C42_after_blending and C50_differences_shown give such states from any opening, C42_selection_consistent keeps them; C40_example is one."
  },
  {
   "property": "C41",
   "status": "proved",
   "theorems": [
    "C41_next_and_previous_model"
   ],
   "note": "As C40. At the last model slotNextModel goes to its first difference."
  },
  {
   "property": "C42",
   "status": "proved",
   "theorems": [
    "C42_selection_consistent",
    "C42_after_opening_a_diff",
    "C42_after_blending",
    "C42_blending_applies_by_default"
   ],
   "note": "Any history of navigation, selection, apply, save, save-all and read-write operations, from any opening; the queries return what the view says. C42_example."
  },
  {
   "property": "C43",
   "status": "proved",
   "theorems": [
    "C43_navigation_actions",
    "C43_actions_up_to_date",
    "C43_actions_after_opening",
    "C43_read_write"
   ],
   "note": "Navigation actions after every operation; all actions after every navigation, selection or apply action and after opening. The save action after a save: C58."
  },
  {
   "property": "C44",
   "status": "partial",
   "theorems": [
    "C44_foreign_model_refuted",
    "C44_no_difference_refuted",
    "C44_foreign_model_selected",
    "C44_foreign_difference"
   ],
   "note": "False of the code: the selected model is assigned before it is checked, so a model that is not in the list is selected (for every such model) and the index is -1. True for a difference that is not in the selected model: C44_foreign_difference."
  },
  {
   "property": "C45",
   "status": "partial",
   "theorems": [
    "C45_failed_open_usable_refuted",
    "C45_failed_open",
    "C45_open_answers",
    "C45_first_open_fails_partial",
    "C45_stranded_begins",
    "C45_each_operation_after_failed_open",
    "C45_histories_after_failed_open"
   ],
   "note": "False of the code: after a list has been shown, a failed open leaves a null list with enabled actions. True for the first open. Proved exactly what happens otherwise, for every state and history: everything that selects something is undefined, enabled or not; applying, unapplying and saving the selected model work as ever, the queries say there are no models, and the actions are disabled when they are next brought up to date."
  },
  {
   "property": "C46",
   "status": "proved",
   "theorems": [
    "C46_compare_dispatches",
    "C46_refresh_and_swap"
   ],
   "note": "All combinations; what blending then does: C42_after_blending; what the process result does: C50."
  },
  {
   "property": "C49",
   "status": "proved",
   "theorems": [
    "C49_swap_exchanges_sides"
   ],
   "note": "Every Info."
  },
  {
   "property": "C50",
   "status": "proved",
   "theorems": [
    "C50_process_crashed",
    "C50_files_identical",
    "C50_differences_shown",
    "C50_output_not_parsed"
   ],
   "note": "Exit code 0, crash, and any other exit code with output that parses or not. An exit code of 2 (trouble) counts as success, so its error output is not reported: part of the claim as stated."
  },
  {
   "property": "C57",
   "status": "partial",
   "theorems": [
    "C57_list_usable_while_diff_runs_refuted",
    "C57_selection_dangles_refuted",
    "C57_wait_begins",
    "C57_each_operation_while_diff_runs",
    "C57_histories_while_diff_runs",
    "C57_enabled_and_dangerous",
    "C50_differences_shown"
   ],
   "note": "False of the code: see the two witnesses. Exactly what happens instead while diff runs: the operations that leave the selected model are undefined whether enabled or not, all others work on the selected model as ever, for every history of them (queries say there are no models and nothing unsaved, saveAll saves nothing); which enabled actions stay dangerous (C57_enabled_and_dangerous). After a process with parseable output the list is usable again (C50_differences_shown)."
  },
  {
   "property": "C58",
   "status": "partial",
   "theorems": [
    "C58_failed_save_can_be_repeated_refuted",
    "C58_save_action_after_save"
   ],
   "note": "False of the code when saving fails; after a successful save the disabled action is right."
  },
  {
   "property": "C59",
   "status": "proved",
   "theorems": [
    "C59_selection_announced"
   ],
   "note": "As C40."
  },
  {
   "property": "C47",
   "status": "proved",
   "theorems": [
    "C47_command_line",
    "C47_fresh_settings",
    "C47_other_paths",
    "C47_default_command_line",
    "C47_input",
    "C47_compare_files",
    "C47_default_without_settings_refuted"
   ],
   "note": "Every settings record and all operands; getopt and the letters asked for are in SpecProcess.v. The default mode without settings dereferences a null pointer although the code tests for it: C47_default_without_settings_refuted. C47_example has patterns that look like options."
  },
  {
   "property": "C48",
   "status": "proved",
   "theorems": [
    "C48_load_after_save",
    "C48_save_keeps_other_entries",
    "C48_defaults",
    "C48_load_reads_own_entries",
    "C48_switches",
    "C48_wrong_numbers"
   ],
   "note": "Every settings record whose two numbers are C++ ints, every configuration; the text form of KConfig entries (lists with commas and backslashes) is modelled. C48_example."
  },
  {
   "property": "C60",
   "status": "partial",
   "theorems": [
    "C60_same_files_refuted",
    "C60_same_files_exactly",
    "C60_same_files_partial"
   ],
   "note": "False of the code for a directory without trailing slash. C60_same_files_exactly: for all plain paths a file is missed exactly when its name goes on after the directory with a slash, and then the rest of the name is opened, as an absolute path; for a directory with trailing slash the claim holds (C60_same_files_partial)."
  },
  {
   "property": "C61",
   "status": "partial",
   "theorems": [
    "C61_announced_refuted",
    "C61_written",
    "C61_written_exactly",
    "C61_no_overwrite",
    "C61_failed_diff_writes_nothing"
   ],
   "note": "The announcement is false of the code when the copy fails or the file exists. The rest is proved, and exactly when the file holds the diff afterwards (C61_written_exactly)."
  },
  {
   "property": "C62",
   "status": "proved",
   "theorems": [
    "C62_destination_file_is_the_saved_mixture",
    "C62_mixture_ends"
   ],
   "note": "From the end of the diff process over every history of the operations of SpecList.v; the diff is any document of SpecUnified.v that turns the source into the destination. C62_example, C62_computed."
  },
  {
   "property": "C63",
   "status": "proved",
   "theorems": [
    "C63_destination_directory_is_the_saved_mixture",
    "C62_mixture_ends"
   ],
   "note": "As C62, for any number of files with different names. C63_example, C63_computed."
  },
  {
   "property": "C64",
   "status": "partial",
   "theorems": [
    "C64_blending_writes_the_source_refuted",
    "C64_each_file_has_its_own_place_refuted",
    "C64_only_the_destination_is_written"
   ],
   "note": "False of the code in the blending modes (two witnesses). True: nothing outside the destination is ever written, from any state; and when comparing, each file has its place (C63)."
  },
  {
   "property": "C65",
   "status": "proved",
   "theorems": [
    "C65_format_is_told_by_the_first_line"
   ],
   "note": "Every text and generator; the shapes of lines are in SpecFormat.v, without regular expressions. C65_example."
  },
  {
   "property": "C66",
   "status": "partial",
   "theorems": [
    "C66_edit_reaches_output_refuted",
    "C66_edit_leaves_output_alone"
   ],
   "note": "False of the code: witness; and for every model and edit exactly nothing of it reaches the hunks, the saved text, the recreated diff, the count and the selection."
  },
  {
   "property": "C67",
   "status": "proved",
   "theorems": [
    "C67_edits_and_apply_all"
   ],
   "note": "Every model whose differences describe the text, all applied. C67_example."
  },
  {
   "property": "C68",
   "status": "partial",
   "theorems": [
    "C68_apply_one_after_edits_refuted",
    "C68_apply_one_exactly",
    "C68_apply_inserted_exactly",
    "C68_apply_inserted_partial"
   ],
   "note": "False of the code for an inserted difference whose two sides have different numbers of lines. Proved exactly: whatever was edited and applied before, after differenceAt(k)->apply(b) the differences describe a text if and only if nothing was to be done, both sides have equally many lines, or exactly the differences behind it have greater destination line numbers and it came with the diff (C68_apply_one_exactly); for an inserted one: if and only if nothing was to be done, equally many lines, or it is the last (C68_apply_inserted_exactly)."
  },
  {
   "property": "C69",
   "status": "partial",
   "theorems": [
    "C69_selection_listed_refuted",
    "C69_first_of_none_refuted",
    "C69_calls_defined",
    "C69_listed_unless_removed"
   ],
   "note": "Two witnesses. Proved: any sequence of calls whose preconditions are met keeps every pointer of the model valid and has no undefined behaviour; a difference is listed after an edit unless reported as removed."
  },
  {
   "property": "C70",
   "status": "partial",
   "theorems": [
    "C70_tracking_is_place_in_saved_file_refuted",
    "C70_place_in_saved_file"
   ],
   "note": "False of the code: witness. Proved for every history: the line in the saved file is source line + destination line - tracking line, so it is the tracking line exactly when that is half way between the other two (for instance when no difference changes the number of lines)."
  },
  {
   "property": "C71",
   "status": "partial",
   "theorems": [
    "C71_deleted_once",
    "C71_all_deleted_refuted"
   ],
   "note": "Nothing is deleted twice: proved for every diff, blended file and sequence of calls, with exactly what is left. That nothing is left is false of the code: witnesses."
  },
  {
   "property": "C72",
   "status": "partial",
   "theorems": [
    "C72_copied_string_refuted",
    "C72_copied_list_refuted",
    "C72_assigned_model_refuted",
    "C72_copies_destroyed",
    "C72_copied_list_destroyed",
    "C72_assigned_model_partial"
   ],
   "note": "False of the code: witnesses. Proved: destroying a copy and its original is defined exactly when there is nothing to share; what assignment copies."
  },
  {
   "property": "C73",
   "status": "proved",
   "theorems": [
    "C73_blocks_do_not_matter",
    "C73_encoding_used",
    "C73_utf8_is_read",
    "C73_mark_is_dropped",
    "C73_any_bytes"
   ],
   "note": "Blocks: for every decoder that is a machine over bytes (the contract of QStringDecoder). UTF-8 and UTF-16 are specified in SpecCodec.v. C73_any_bytes: every file of bytes has a text (any_text in SpecCodec.v: a byte that begins no character gives U+FFFD). C73_example, C73_any_example, C74_example (a character across blocks)."
  },
  {
   "property": "C74",
   "status": "partial",
   "theorems": [
    "C74_bytes_kept_refuted",
    "C74_saved_text_reads_back",
    "C74_bytes_to_bytes",
    "C74_bytes_kept_exactly"
   ],
   "note": "False of the code for other encodings, byte order marks, malformed and truncated UTF-8 (four witnesses). Proved for every UTF-8 file without byte order mark, every diff of it and every history: bytes in, bytes out; and C74_bytes_kept_exactly: exactly the UTF-8 files without byte order mark are reproduced when read as UTF-8."
  },
  {
   "property": "C75",
   "status": "partial",
   "theorems": [
    "C75_text_with_file_refuted",
    "C75_only_the_hunks_are_saved",
    "C75_file_with_text"
   ],
   "note": "False of the code for a text compared with a file: witness, and for every diff and history exactly the lines of the hunks are saved. Proved for a file compared with a text."
  },
  {
   "property": "C76",
   "status": "partial",
   "theorems": [
    "C76_perforce_unified_read_back",
    "C76_perforce_context_read_back",
    "C76_perforce_normal_read_back",
    "C76_names_exactly",
    "C76_names_lost",
    "C76_names_refuted"
   ],
   "note": "Proved for every document, whatever its headers print on the two sides, and each of the three forms of hunks, except for the names: of a file at a revision the name is read, of a working file (the new side of p4 diff) and of a file followed by its type (both sides of p4 diff2) nothing, for every file of every such document, and a witness."
  },
  {
   "property": "C77",
   "status": "partial",
   "theorems": [
    "C77_what_an_int_is",
    "C77_parse_overflow_refuted",
    "C77_parse_no_overflow_partial",
    "C77_parse_overflow_or_right",
    "C77_parse_defined",
    "C77_nine_digits",
    "C77_tracking_in_range",
    "C77_edited_numbers_in_range"
   ],
   "note": "False of the code: three witnesses. Proved for every text whose header numbers leave room for its lines (for instance at most nine digits): the parser in ints does what the parser in unbounded numbers does, so C13-C27 are about ints; for every text it does so or overflows. Tracking numbers stay in range under every history of applying, and all numbers under every history of edits and apply-all when source and text together have fewer lines than the greatest int."
  },
  {
   "property": "C78",
   "status": "partial",
   "theorems": [
    "C78_patient_history_defined",
    "C78_jobs_apart",
    "C78_second_run_undefined",
    "C78_impatient_history_refuted",
    "C78_end_told_refuted"
   ],
   "note": "False of the code: calls that start diff while it is running are undefined (for every state; three witnesses), and a saveDiff without differences, a failed one and a program that cannot be started are not told. Proved for every history whose user waits: defined, and every comparison that starts is told to end exactly once; the two jobs leave each other's state alone."
  },
  {
   "property": "C79",
   "status": "proved",
   "theorems": [
    "C79_rounds"
   ],
   "note": ""
  },
  {
   "property": "C80",
   "status": "partial",
   "theorems": [
    "C80_blended_file_is_saved_partial",
    "C80_nothing_unsaved_means_saved_refuted"
   ],
   "note": "False of the code before the first save: witness. Proved for diffs about one file, every file, setting and history: when one of the operations saved something (saves_something, computed from the operations alone), the place of saving holds the file with exactly those changes worked in that were not applied at the last save and no other file is touched; when none did, no file is touched at all."
  },
  {
   "property": "C81",
   "status": "partial",
   "theorems": [
    "C81_cvs_normal_partial",
    "C81_cvs_normal_refuted"
   ],
   "note": "False of the code for every diff whose commands do not follow the Index line at once: nothing is read. Proved for all documents: exactly the files whose commands follow the name are read, exactly; the diff is always reported as malformed."
  },
  {
   "property": "C82",
   "status": "partial",
   "theorems": [
    "C82_saved_diff_reopened",
    "C82_other_encoding_refuted"
   ],
   "note": "Proved for every unified document that diff prints in UTF-8. False of the code for other encodings: witness in Latin-1."
  },
  {
   "property": "C83",
   "status": "proved",
   "theorems": [
    "C83_read_only_means_no_editing",
    "C83_read_write_as_set"
   ],
   "note": "Invariants over Life.v. C83_example."
  },
  {
   "property": "C84",
   "status": "proved",
   "theorems": [
    "C84_listed_models_live"
   ],
   "note": "Invariant over Life.v. Example: the states of C83_example and C85_models_freed_refuted."
  },
  {
   "property": "C85",
   "status": "partial",
   "theorems": [
    "C85_models_freed_refuted",
    "C85_what_is_freed",
    "C85_replaced_models_leak",
    "C85_leaked_for_ever",
    "C85_memory_grows"
   ],
   "note": "False of the code: witness, and for every diff and every number of openings every model of every opening lives on. Proved exactly which models are freed by everything that can happen: those in the list when the output of a process is read, and no others."
  },
  {
   "property": "C86",
   "status": "proved",
   "theorems": [
    "C86_files_change_only_when_saved",
    "C86_same_list",
    "C86_saving_everything",
    "C64_only_the_destination_is_written"
   ],
   "note": "saveDiff() writes its own file (C61). C86_example."
  },
  {
   "property": "C87",
   "status": "proved",
   "theorems": [
    "C69_calls_defined"
   ],
   "note": "The true half of C69. C69_example."
  },
  {
   "property": "C88",
   "status": "proved",
   "theorems": [
    "C71_deleted_once"
   ],
   "note": "The true half of C71. C71_example."
  },
  {
   "property": "C89",
   "status": "proved",
   "theorems": [
    "C38_failed_save_reported_partial",
    "C37_save_outcome"
   ],
   "note": "The true half of C38 (there, also that the result is false)."
  },
  {
   "property": "C90",
   "status": "partial",
   "theorems": [
    "C90_change_while_saving_refuted",
    "C90_saves_the_beginning_partial",
    "C90_what_is_written",
    "C90_nothing_meanwhile"
   ],
   "note": "False of the code: witness, a difference applied while the file is copied is marked as saved and is in no file. Proved for every schedule: every changed file holds the text some model with unsaved changes had at some moment; a save that ends has written the text of its beginning and marked all as saved, or has written nothing, changed no model and reported it; if nothing happens meanwhile, saving is that of World.v, so C62-C64, C80 and C86 apply. C90_saves_the_beginning_example."
  },
  {
   "property": "C91",
   "status": "partial",
   "theorems": [
    "C91_destination_changes_refuted",
    "C91_where_is_written_partial",
    "C91_same_destination"
   ],
   "note": "False of the code: witness. Proved for every schedule: what is written lies in the destination of some moment; in the destination if that never changes."
  },
  {
   "property": "C92",
   "status": "partial",
   "theorems": [
    "C92_saving_is_safe_refuted",
    "C92_saving_is_safe_always_partial",
    "C92_saving_is_safe_partial",
    "C92_freed_model_is_used"
   ],
   "note": "False of the code: two witnesses (diff ends; the list is refreshed while everything is saved). Proved for every schedule in which the models of saves under way are not in the list when the output of a process is read, and the list of a save of everything stays: going on is defined, whatever the job answers. That no pointer of a model dangles is not assumed but proved (C94). C92_example, C92_always_example."
  },
  {
   "property": "C93",
   "status": "partial",
   "theorems": [
    "C93_started_while_copying_refuted",
    "C93_started_while_copying_undefined",
    "C93_copied_undisturbed_partial",
    "C93_nothing_meanwhile"
   ],
   "note": "False of the code, for every state: starting any run of diff during the copy makes its end undefined. Proved for every history without another saveDiff and with no comparison running at the end of the copy: the diff is written to its place and nothing else changes; without anything meanwhile it is C78. C93_example."
  },
  {
   "property": "C94",
   "status": "proved",
   "theorems": [
    "C94_no_model_dangles",
    "C94_living_models_usable",
    "C94_list_usable"
   ],
   "note": "Invariant over Life.v; the holders of models change them by calls with the preconditions of C69. C94_example (with an edit)."
  },
  {
   "property": "C95",
   "status": "partial",
   "theorems": [
    "C95_selection_lives_refuted",
    "C95_selection_lives_partial",
    "C95_selection_lost",
    "C95_lost_is_used"
   ],
   "note": "False of the code: witness (diff is started, a diff file is opened before it ends, diff fails with exit code 2). Proved for every history in which no unreadable output arrives while models are shown; and that when it does, the selected model is deleted, stays selected, and its next use is undefined. C95_example."
  },
  {
   "property": "C96",
   "status": "proved",
   "theorems": [
    "C96_polite_history_defined",
    "C96_queries_defined",
    "C96_asked_is_needed",
    "C96_others_needed",
    "C96_where_the_list_is"
   ],
   "note": "C96_where_the_list_is says exactly when models() is null (so clear() keeps an empty list). Progress and preservation over Life.v. The preconditions are in `ready`, by call; they are proved necessary for thirteen kinds of calls, and for the others there are histories after which the call without them is undefined. That the parser can read a text is C27. C96_example: a polite history of 33 happenings."
  },
  {
   "property": "C97",
   "status": "proved",
   "theorems": [
    "C97_context_lines",
    "C97_context_determined",
    "C97_normal_lines",
    "C97_normal_determined",
    "C97_unified_lines",
    "C97_unified_determined",
    "C97_well_formed_normal"
   ],
   "note": "files_with/normal_with over chunks, commands and patches (SpecLines.v) are relations on lines that do not mention the parser. Every run meets them; two readings of the same lines show the same files and the same verdict, so they characterise the parser completely. C97_example: a malformed text of each format."
  },
  {
   "property": "C98",
   "status": "proved",
   "theorems": [
    "C98_model_after_any_setters",
    "C98_difference_after_any_setters",
    "C98_unsaved_after_any_setters",
    "C98_hunk_after_any_setters"
   ],
   "note": "last_of and all_of (SpecSetters.v) are folds over the calls. The directory parts of the names are C03, DifferenceString is C12. C98_example."
  },
  {
   "property": "C99",
   "status": "partial",
   "theorems": [
    "C99_exactly_when_told",
    "C99_listener_knows_partial",
    "C99_selecting_is_told",
    "C99_shown_is_told",
    "C99_failed_reading_not_told",
    "C99_listener_knows_refuted"
   ],
   "note": "False of the code: witness; proved for every state that after an unreadable text a listener still has the deleted list. C99_exactly_when_told says for everything that can happen exactly when the listener still knows list and selection (announced, SpecTold.v); so he does after every history of such happenings, and whatever he knew before, he does as soon as a list is shown. C99_example."
  },
  {
   "property": "C100",
   "status": "proved",
   "theorems": [
    "C100_what_the_info_says",
    "C100_compare_again"
   ],
   "note": "Field by field, for everything in Life.v; mode_of_compare, turns_round and diff_read (SpecInfo.v) do not mention the code's functions. C100_example: a diff given as the source."
  },
  {
   "property": "C101",
   "status": "partial",
   "theorems": [
    "C101_signals_are_true",
    "C101_every_question_is_answered",
    "C101_while_opening",
    "C101_while_diff_finishes",
    "C101_while_blending",
    "C101_opening_again",
    "C101_questions_refuted",
    "C101_actions_lag",
    "C101_actions_refuted"
   ],
   "note": "C101_signals_are_true: for everything that can happen, from any state, every signal is true of the list at its moment (truthful, SpecSignals.v, says so with the list's own queries) exactly when what was asked for was there. C101_every_question_is_answered: on a shown list, during every signal of every call, the queries are defined and give what the view says, after the call or between its two steps. While a list is opened the last sentence is false (C101_questions_refuted: four witnesses); C101_while_opening, _diff_finishes, _blending say of every signal which list and which selection the slot finds, and that from the status bar on everything is answered, and from modelsChanged() on the actions are right; C101_opening_again: a list that showed a diff answers at every moment. Actions: false for moves and for applying (C101_actions_refuted); C101_actions_lag: exactly as before the call. C101_example."
  },
  {
   "property": "C102",
   "status": "partial",
   "theorems": [
    "C102_silent_slots",
    "C102_a_call_goes_on",
    "C102_to_any_depth",
    "C102_told_the_truth",
    "C102_depth_is_no_limit",
    "C102_while_opening",
    "C102_calls_refuted",
    "C102_echo_never_ends"
   ],
   "note": "Each Q_EMIT is a call of arbitrary slots that change the list (Reentrant.v). C102_a_call_goes_on: for any slots that leave a list that shows something, every call does so too. C102_to_any_depth: slots that choose calls by looking at the list, whose signals are told to the same slots, at any depth; goes_well is never undefined, and good if the calls end (they need not: C102_echo_never_ends), C102_depth_is_no_limit says the allowed depth is otherwise immaterial. Slots are only told what is true of the list at that moment (`gentle` and `well_behaved` say what slots do when told the truth; C102_told_the_truth spells it out), also after earlier slots changed it. False of the code for slots that call the list while a text is read, that replace the list during saveAll(), that start diff at the end of diff, or that start diff and wait for it when it is about to run (C102_calls_refuted: four witnesses), hence `early` and the restriction on saveAll(). C102_silent_slots: with slots that do nothing these are the calls of Life.v. C102_example: slots that apply, move on and save, three calls deep."
  },
  {
   "property": "C103",
   "status": "proved",
   "theorems": [
    "C103_work_leaves_the_diff",
    "C103_any_history",
    "C103_text_of_the_diff",
    "C103_text_of_the_list",
    "C103_only_applying_applies",
    "C103_one_difference_is_applied"
   ],
   "note": "No hypothesis on the state: also of lists that show nothing, dangle or are half opened, as far as the calls are defined. same_diff in SpecWork.v lists what a diff says, field by field; blended hunks are additional. C103_example: a history with applying, saving, blending and another text, after which marks and hunks differ and the text is the same."
  },
  {
   "property": "C104",
   "status": "partial",
   "theorems": [
    "C104_unified_windows_line_ends_partial",
    "C104_windows_line_ends_refuted"
   ],
   "note": "False of the code for context diffs and unified diffs of Perforce (no files are read), normal diffs (the new text of a change is lost), a last line without line end (it gets the carriage return of the diff) and a header that lacks its last character (it becomes one): witnesses, each with the two readings. Proved for every other list of lines read as a unified diff (diff, git, CVS, Subversion), well-formed or not, if both texts are read without undefined behaviour (exactly when: C27): same generator, format, verdict, files, hunks, positions and types, every line and function with its carriage return, stamped names the same; names without a stamp get the carriage return too (crlf_name). C104_example: two files, one bare and quoted, with rubbish at the end. Assumes PCRE2's default newline, the line feed."
  },
  {
   "property": "C105",
   "status": "partial",
   "theorems": [
    "C105_git_diffs_partial",
    "C105_names_without_blanks",
    "C105_all_files_exactly",
    "C105_git_diffs_refuted"
   ],
   "note": "False of the code: git prints a TAB after a name with a blank, and such a header is not one for the parser. C105_git_diffs_partial says for every diff of git exactly which files are read (git_left, SpecGit.v: a file whose old name has a blank is passed over, one of which only the new name has one ends reading), each exactly as printed, always without a complaint; C105_names_without_blanks and C105_all_files_exactly: all, exactly if no name has a blank; C105_git_diffs_refuted: a changed and a new file with a blank in the name. The files passed over must have no removed line that begins with two dashes and a blank (it looks like a header; see C18). C105_example: three documents that meet the hypotheses. git_text is the specification's account of git's output: a plain unified diff after a line 'diff --git'."
  },
  {
   "property": "C106",
   "status": "proved",
   "theorems": [
    "C106_between_the_files",
    "C106_same_files"
   ],
   "note": "loose_ok (SpecBetween.v) is doc_ok of C16 without the condition on how the lines after a file begin; gaps are these lines; it keeps that no line before the first file looks like another format (quiet), that no line looks like a header of a file, of Perforce or of a missing newline (between_line), and that with an Index line the first header has a time stamp. C106_same_files: other lines between the same files give the same files. C106_example: a change of a property printed by Subversion, with and without."
  }
 ]
}