{"id": "C01", "title": "Splitting a text into lines is lossless", "statement": "ModelList::parseDiffOutput and blending split their text into lines that keep their terminator: concatenating the pieces in order gives back the text exactly, no piece is empty, a newline occurs only as the last character of a piece, and every piece except possibly the last one ends in a newline.", "quantifier": "every QString (any length, any characters, with or without a final newline)", "why_tests_cant": "holds for texts of every length and every placement of newlines; a test samples a handful", "anchors": ["src/modellist_p.cpp: ModelListPrivate::split"]}
{"id": "C02", "title": "Path escaping round-trips", "statement": "Un-escaping the escaped form of a path (as written in a recreated diff header) gives back the path, for every path, including paths with blanks, double quotes, backslashes, and any mixture or repetition of them. The escaped form has a backslash before each backslash and quote and is in quotes exactly if the path contains a blank.", "quantifier": "every path string", "why_tests_cant": "the two sequential replacements interact; only a proof covers all mixtures of quotes and backslashes", "anchors": ["src/parserbase.cpp: ParserBase::escapePath, ParserBase::unescapePath"]}
{"id": "C03", "title": "A model's path and file name partition its source and destination", "statement": "After DiffModel(source,destination), sourcePath()+sourceFile() = source(), sourceFile() contains no '/', sourcePath() is empty or ends in '/'; likewise for the destination. The same holds after any sequence of setSourceFile/setDestinationFile calls whose last path contains a '/'. (It fails after setSourceFile with a path without '/' on a model that had a directory: the stale directory is kept.)", "quantifier": "every pair of strings and every sequence of setter calls", "why_tests_cant": "all strings and all call histories", "anchors": ["src/diffmodel_p.cpp: splitSourceInPathAndFileName, splitDestinationInPathAndFileName", "src/diffmodel.cpp: DiffModel::DiffModel, setSourceFile, setDestinationFile"]}
{"id": "C04", "title": "Depth strips exactly that many leading path components", "statement": "Opening a directory or file together with a diff (openFileAndDiff/openDirAndDiff) strips info.depth leading components (like patch -pN) from every model's source and destination.", "quantifier": "every path and every depth", "why_tests_cant": "all paths and all depths", "anchors": ["src/modellist_p.cpp: lstripSeparators, ModelListPrivate::setDepthAndApplied"]}
{"id": "C05", "title": "The character table computes the Levenshtein distance", "statement": "For two strings whose table fits the 16.7M-entry limit, createTable returns the least number of single-character insertions, deletions and replacements that turn the first string into the second; all reads and writes stay inside the table.", "quantifier": "every pair of strings within the size limit, and every previous state of the (re-used) table object", "why_tests_cant": "minimality quantifies over all edit scripts of all pairs of strings", "anchors": ["src/levenshteintable.h: createTable, setSize, getContent, setContent", "src/differencestringpair.h: DifferenceStringPair"]}
{"id": "C06", "title": "The line table computes the insert/delete distance", "statement": "For two lists of lines within the size limit, createTable returns the least number of line insertions and deletions that turn the first list into the second (equivalently |a|+|b|-2*LCS), whatever the hash function.", "quantifier": "every pair of line lists within the size limit; every hash function; every previous table state", "why_tests_cant": "minimality quantifies over all edit scripts of all pairs of lists", "anchors": ["src/levenshteintable.h: createTable", "src/stringlistpair.cpp: StringListPair::equal"]}
{"id": "C07", "title": "Inline markers leave exactly common text unmarked", "statement": "When the two strings of a changed line pair are marked, deleting the marked characters from both strings gives the same text; in fine-grained mode the number of marked characters in each string is at most the edit distance and the distance is at most the total number of marked characters.", "quantifier": "every pair of strings within the size limit", "why_tests_cant": "all pairs of strings, all back-traces through the table", "anchors": ["src/levenshteintable.h: createListsOfMarkers, chooseRoute", "src/difference.cpp: Difference::determineInlineDifferences"]}
{"id": "C08", "title": "Marker offsets are ordered and inside the string", "statement": "In each marker list produced for a changed line pair the offsets never decrease and never exceed the length of the string.", "quantifier": "every pair of strings within the size limit", "why_tests_cant": "all pairs of strings", "anchors": ["src/levenshteintable.h: createListsOfMarkers"]}
{"id": "C09", "title": "Inline markers come in Start/End pairs", "statement": "Each marker list of a changed line pair is a sequence of Start,End pairs.", "quantifier": "every pair of strings", "why_tests_cant": "all pairs of strings (the code violates it when the first characters are replaced)", "anchors": ["src/levenshteintable.h: createListsOfMarkers"]}
{"id": "C10", "title": "Line markers describe a minimal edit script", "statement": "For two line lists, the two marker lists are sequences of Start,End pairs delimiting disjoint, non-empty, separated ranges; deleting the marked lines from both lists gives the same list; the total number of marked lines equals the insert/delete distance.", "quantifier": "every pair of line lists within the size limit", "why_tests_cant": "all pairs of lists; minimality over all scripts", "anchors": ["src/levenshteintable.h: createListsOfMarkers, chooseRoute", "src/stringlistpair.cpp"]}
{"id": "C11", "title": "Table size limit", "statement": "setSize/createTable reject (return 0) every pair whose table has more than 2^24 entries and less than 2^32; a rejected pair gets no inline markers. If the 32-bit product wraps around below the limit the table is accessed out of bounds.", "quantifier": "every pair of lengths", "why_tests_cant": "32-bit wrap-around over all lengths", "anchors": ["src/levenshteintable.h: setSize, createTable", "src/difference.cpp: determineInlineDifferences"]}
{"id": "C12", "title": "String equality is exact in spite of hashing", "statement": "DifferenceString::operator== is true exactly when the two strings are equal, for all strings constructed from a QString or updated with setString (hash collisions never matter, equal strings never compare different).", "quantifier": "every pair of strings and every sequence of setString/setMarkerList/prepend calls", "why_tests_cant": "32-bit hash collisions over all strings", "anchors": ["src/differencestring_p.h: DifferenceStringPrivate::operator==, calculateHash", "src/differencestring.cpp"]}
{"id": "C13", "title": "'No newline' markers are folded into the preceding line", "statement": "Before parsing, every line that starts with '\\ No newline' is removed and the preceding line loses its newline and nothing else; all other lines are unchanged and in order, provided no marker is the first line and no two markers are adjacent. (A marker in the first line is undefined behaviour; of two adjacent markers the second erases the whole preceding line.)", "quantifier": "every list of diff lines", "why_tests_cant": "all lists and placements of markers", "anchors": ["src/parser.cpp: Parser::cleanUpCrap"]}
{"id": "C14", "title": "Generator detection", "statement": "The generator is CVSDiff if some line starts with 'Index: ' and no earlier line starts with '==== ', Perforce if some line starts with '==== ' and no earlier line starts with 'Index: ', and Diff otherwise.", "quantifier": "every list of diff lines", "why_tests_cant": "all inputs", "anchors": ["src/parser.cpp: Parser::determineGenerator"]}
{"id": "C15", "title": "Parsing always terminates", "statement": "Parser::parse terminates on every input, well-formed or not, for all three generators and all formats.", "quantifier": "every list of strings", "why_tests_cant": "termination on all inputs", "anchors": ["src/parserbase.cpp: parseUnified, parseContext, parseNormal and their helpers", "src/parser.cpp: Parser::parse"]}
{"id": "C16", "title": "Well-formed unified diffs parse to exactly their contents", "statement": "Parsing the GNU unified rendering of any list of file patches (any number of files, hunks, changes; zero, one or many lines; omitted ',1' counts; zero counts; missing final newlines; git-style preamble lines) yields one model per file patch with exactly its file names, timestamps, hunks, functions, differences, types, line numbers and line texts, and reports no malformed diff.", "quantifier": "every list of well-formed file patches", "why_tests_cant": "all documents; a test samples a few patches", "anchors": ["src/parserbase.cpp: parseUnified*, matchesUnifiedHunkLine, checkHeader", "src/parser.cpp: Parser::parse", "src/diffparser.cpp: DiffParser::determineFormat"]}
{"id": "C17", "title": "Recreating a parsed unified diff reproduces its text", "statement": "recreateDiff() on the models parsed from a unified diff text whose headers carry timestamps, whose hunks have no zero counts and print their counts, and whose lines are newline-terminated, reproduces that text; hence parsing a recreated diff gives the same models.", "quantifier": "every well-formed unified diff document with those features", "why_tests_cant": "all documents", "anchors": ["src/diffmodel.cpp: DiffModel::recreateDiff", "src/diffhunk.cpp: DiffHunk::recreateHunk", "src/difference.cpp: Difference::recreateDifference", "src/modellist.cpp: ModelList::recreateDiff"]}
{"id": "C18", "title": "Recreated diffs are parseable for every parsed diff", "statement": "For every unified diff that parses, the recreated diff parses to the same models.", "quantifier": "every parseable unified diff", "why_tests_cant": "all documents (the code violates it for headers without timestamp, for revisions, for zero-count hunks and for lines without newline)", "anchors": ["src/diffmodel.cpp: DiffModel::recreateDiff", "src/diffhunk.cpp: DiffHunk::recreateHunk", "src/parserbase.cpp: parseUnifiedDiffHeader, parseUnifiedHunkBody"]}
{"id": "C19", "title": "A recreated hunk header counts its body", "statement": "In every recreated hunk, the source (destination) count printed in the header equals the number of body lines printed with prefix ' ' or '-' (' ' or '+'), for every hunk whose Unchanged differences have as many source as destination lines.", "quantifier": "every hunk", "why_tests_cant": "all hunks", "anchors": ["src/diffhunk.cpp: DiffHunk::recreateHunk", "src/difference.cpp: Difference::recreateDifference"]}
{"id": "C20", "title": "Every parsed difference is typed by its contents", "statement": "For every input (even malformed) that parses as a unified diff: each difference listed in a model is Insert, Delete or Change according to which of its source and destination line lists are non-empty, context differences have equal, non-empty source and destination lines, the differences of a model are exactly the non-context differences of its hunks in order, and every returned model has at least one difference. In a normal or context diff (even malformed) an Insert has no source lines, a Delete no destination lines, common lines are equal and non-empty on both sides, and a changed difference of a context diff has lines on one side at least; more is not true there (an addition command without lines, a change marked on one side only).", "quantifier": "every list of lines, malformed or not", "why_tests_cant": "all inputs including garbage", "anchors": ["src/parserbase.cpp: parseUnified, parseUnifiedHunkBody, parseContextHunkBody, parseNormalHunkBody"]}
{"id": "C21", "title": "Differences of a parsed hunk are contiguous", "statement": "For every input that parses as a unified or context diff: inside each hunk, each difference starts in source and destination right where the previous one ended, and the first one at the hunk's own line numbers.", "quantifier": "every list of lines, malformed or not", "why_tests_cant": "all inputs including garbage", "anchors": ["src/parserbase.cpp: parseUnifiedHunkBody, parseContextHunkBody"]}
{"id": "C22", "title": "No line is invented, lost or reordered inside a hunk", "statement": "For every input that parses as a unified diff: the lines stored in a hunk are, in order, a contiguous run of the input lines following a hunk header, each without its first character, ' ' lines on both sides, '-' lines only in the source and '+' lines only in the destination.", "quantifier": "every list of lines, malformed or not", "why_tests_cant": "all inputs including garbage", "anchors": ["src/parserbase.cpp: parseUnifiedHunkBody"]}
{"id": "C23", "title": "Well-formed normal diffs parse to exactly their contents", "statement": "Parsing the rendering of any non-empty list of normal-format hunks (a, d and c commands) as a single-file diff yields one model with one hunk and one difference per command, with the printed line numbers, the right type and the line texts (without newline), and no malformed report.", "quantifier": "every non-empty list of well-formed normal hunks", "why_tests_cant": "all documents", "anchors": ["src/parserbase.cpp: parseNormal, parseNormalDiffHeader, parseNormalHunkHeader, parseNormalHunkBody"]}
{"id": "C24", "title": "Well-formed context diffs parse to exactly their contents", "statement": "Parsing the rendering of any non-empty list of context-format file patches whose hunks have two lines or more on each side (C53: the others) and whose lines end in newlines (C51: the others) yields models with the right files, hunks, differences, types, line numbers and line texts (without newline), and no malformed report.", "quantifier": "every non-empty list of well-formed context file patches", "why_tests_cant": "all documents", "anchors": ["src/parserbase.cpp: parseContext, parseContextDiffHeader, parseContextHunkHeader, parseContextHunkBody"]}
{"id": "C25", "title": "Parsed models are ordered by directory and file name", "statement": "The models returned by the parser are a permutation of the file patches in the input and sorted by source directory, then source file name, in the locale's collation.", "quantifier": "every input and every collation order", "why_tests_cant": "all inputs and all collations", "anchors": ["src/diffmodellist.cpp: DiffModelList::sort", "src/diffmodel.cpp: operator<, localeAwareCompareSource"]}
{"id": "C26", "title": "Malformed diffs are reported", "statement": "If hunks or parts of hunks were missed, *malformed is set to true.", "quantifier": "every list of lines", "why_tests_cant": "all inputs (the code violates it: a second file header without its '+++' line is silently dropped)", "anchors": ["src/parserbase.cpp: checkHeader, parseUnifiedDiffHeader, parse"]}
{"id": "C27", "title": "Parsing never has undefined behaviour", "statement": "Parser::parse has defined behaviour on every list of lines.", "quantifier": "every list of lines", "why_tests_cant": "all inputs (the code violates it: truncated headers and hunks dereference the end iterator)", "anchors": ["src/parserbase.cpp: parseUnifiedDiffHeader, parseContextDiffHeader, parseContextHunkBody, matchesUnifiedHunkLine", "src/parser.cpp: cleanUpCrap"]}
{"id": "C28", "title": "Tracking line numbers under any history of applying", "statement": "After any sequence of applying and unapplying single differences (through the model or directly) and of apply-all/unapply-all, trackingDestinationLineNumber() of each difference is its source line number plus the sum, over the applied differences before it, of destination minus source line count - the line where it sits in the patch made of the applied differences - and nothing else in the differences changes.", "quantifier": "every model with increasing destination line numbers and every operation sequence", "why_tests_cant": "all histories of operations", "anchors": ["src/diffmodel.cpp: slotDifferenceApplied, GetDifferenceDelta, applyAllDifferences, applyDifference", "src/difference.cpp: apply, applyQuietly"]}
{"id": "C29", "title": "Applied count under any history", "statement": "After any sequence of selecting and applying/unapplying through the model and apply-all/unapply-all, appliedCount() equals the number of differences whose applied() is true. (It fails when Difference::apply is called directly and after linesChanged.)", "quantifier": "every model and every operation sequence", "why_tests_cant": "all histories", "anchors": ["src/diffmodel.cpp: applyDifference, applyAllDifferences, appliedCount"]}
{"id": "C30", "title": "Unsaved flag tells whether the state differs from the last save", "statement": "After any sequence of apply/unapply/apply-all operations and successful saves, a difference is unsaved exactly when its applied state differs from its applied state at the last successful save (initially unapplied), and hasUnsavedChanges() is the disjunction.", "quantifier": "every model and every operation sequence", "why_tests_cant": "all histories", "anchors": ["src/difference.cpp: apply, applyQuietly", "src/diffmodel.cpp: hasUnsavedChanges", "src/modellist.cpp: saveDestination"]}
{"id": "C31", "title": "Order of applying does not matter", "statement": "Two histories of applying/unapplying that end with the same set of applied differences end in the same line numbers; in particular unapplying everything restores the initial tracking numbers.", "quantifier": "every pair of operation sequences", "why_tests_cant": "all pairs of histories", "anchors": ["src/diffmodel.cpp: applyAllDifferences, slotDifferenceApplied"]}
{"id": "C32", "title": "Editing the destination keeps the differences a correct patch", "statement": "In a model whose differences are all applied and describe the current text as a patch of the source, linesChanged(old,new,line) - for old lines really standing at that line - leaves differences that, applied to the same source, give the edited text; they are again all applied, ordered, disjoint, with correct source, destination and tracking numbers; so this holds after any sequence of edits within the table limit.", "quantifier": "every source text, every such model, every sequence of edits", "why_tests_cant": "all texts and all edit histories", "anchors": ["src/diffmodel.cpp: DiffModel::linesChanged", "src/diffmodel_p.cpp: processStartMarker, computeDiffStats"]}
{"id": "C33", "title": "linesChanged reports exactly what it changed", "statement": "The returned pair (inserted, removed) describes the change of the list of differences: the new list is the old one with the removed contiguous run replaced by the inserted ones; differences before are untouched, differences after only have their tracking number shifted by the change in line count.", "quantifier": "every model and every edit with defined behaviour", "why_tests_cant": "all models and edits", "anchors": ["src/diffmodel.cpp: DiffModel::linesChanged"]}
{"id": "C34", "title": "Edits that restore the source leave no difference behind", "statement": "If after linesChanged the touched region equals the source again, no difference is inserted; an edit that changes nothing and touches no difference inserts none; every inserted difference is a real change (not Unchanged) and the inserted differences are a minimal line edit script of the touched region.", "quantifier": "every model with all differences applied and every edit within the size limit of the line table (C35: the others)", "why_tests_cant": "all models and edits", "anchors": ["src/diffmodel.cpp: DiffModel::linesChanged"]}
{"id": "C35", "title": "linesChanged works for unapplied differences and large edits too", "statement": "The same guarantees hold when some differences are not applied, and for edits of any size.", "quantifier": "every model and every edit", "why_tests_cant": "all models and edits (the code violates it: wrong source line numbers and wrong text around unapplied differences; an edit whose table exceeds 2^24 entries is silently dropped)", "anchors": ["src/diffmodel.cpp: DiffModel::linesChanged", "src/levenshteintable.h: setSize"]}
{"id": "C36", "title": "Blending completes a correct diff to the whole files", "statement": "If a model's hunks (unified, sorted) describe how the lines of file A turn into the lines of file B, then after blending A into the model the source lines of all differences of all hunks, in order, are the lines of A and the destination lines are the lines of B; the original hunks are still there in order and line numbers are contiguous over the whole file.", "quantifier": "every pair of files and every correct diff between them", "why_tests_cant": "all files and diffs", "anchors": ["src/modellist_p.cpp: ModelListPrivate::blendFile"]}
{"id": "C37", "title": "Saving writes, per difference, the chosen side", "statement": "The text saved for a model is, over all hunks and differences in order, the source lines of applied differences and the destination lines of the others; so for a blended model saving with nothing applied gives B and with everything applied gives A. A successful save clears all unsaved flags, a failed one clears none.", "quantifier": "every model and every apply history, every outcome of the file operations", "why_tests_cant": "all models, histories and I/O outcomes", "anchors": ["src/modellist.cpp: ModelList::saveDestination"]}
{"id": "C38", "title": "A failed save is reported", "statement": "saveDestination returns false (and saveAll stops) whenever the destination was not written.", "quantifier": "every outcome of the file operations", "why_tests_cant": "all failure points (the code violates it: a failed upload returns true)", "anchors": ["src/modellist.cpp: ModelList::saveDestination, saveAll"]}
{"id": "C39", "title": "Blending does not change the recreated diff", "statement": "recreateDiff() gives the same text before and after blending.", "quantifier": "every model and every file contents", "why_tests_cant": "all models and files", "anchors": ["src/diffmodel.cpp: DiffModel::recreateDiff", "src/modellist_p.cpp: blendFile"]}
{"id": "C40", "title": "Next and previous difference walk all differences in order", "statement": "From any selected difference, slotNextDifference selects the next difference of the whole list of models (the first of the next model after the last of a model) and stays at the very last one; slotPreviousDifference is its mirror image; so from the first difference k steps forward reach the k-th difference overall, and no difference is skipped.", "quantifier": "every list of non-empty models, every selected position, every number of steps", "why_tests_cant": "all lists and all navigation histories", "anchors": ["src/modellist.cpp: slotNextDifference, slotPreviousDifference", "src/modellist_p.cpp: nextModel, prevModel, firstModel, lastModel", "src/diffmodel.cpp: nextDifference, prevDifference, firstDifference, lastDifference"]}
{"id": "C41", "title": "Next and previous model", "statement": "slotNextModel/slotPreviousModel select the first difference of the next/previous model, and stay in the last/first model at the ends.", "quantifier": "every list of non-empty models and every state", "why_tests_cant": "all lists and histories", "anchors": ["src/modellist.cpp: slotNextModel, slotPreviousModel"]}
{"id": "C42", "title": "Selection state stays consistent under any history", "statement": "After any sequence of navigation, selection (of models and differences of the list), apply and apply-all slots, the selected model is in the list at the remembered index, the selected difference is in the selected model at the remembered index, list and model agree on it, and no undefined behaviour occurs.", "quantifier": "every list of non-empty models and every operation sequence", "why_tests_cant": "all histories", "anchors": ["src/modellist.cpp: slots", "src/modellist_p.cpp: setSelectedModel", "src/diffmodel.cpp: setSelectedDifference"]}
{"id": "C43", "title": "Navigation actions are enabled exactly when they can move", "statement": "After every navigation, selection or apply action, previous/next difference and previous/next file are enabled exactly when there is a previous/next difference overall or file, apply/unapply exactly when the selected difference is unapplied/applied (in read-write mode), apply-all/unapply-all exactly when something is left to apply/unapply, and save exactly when the selected model has unsaved changes.", "quantifier": "every reachable state", "why_tests_cant": "all histories", "anchors": ["src/modellist_p.cpp: updateModelListActions, hasPrevModel, hasNextModel, hasPrevDiff, hasNextDiff"]}
{"id": "C44", "title": "Selecting something outside the list falls back safely", "statement": "slotSelectionChanged with a model that is not in the list falls back to the first model.", "quantifier": "every model pointer", "why_tests_cant": "all arguments (the code violates it: the check compares the model with itself)", "anchors": ["src/modellist.cpp: slotSelectionChanged", "src/modellist_p.cpp: setSelectedModel"]}
{"id": "C45", "title": "Failed opens leave a usable empty list", "statement": "After openDiff/parseAndOpenDiff on something that is not a diff, the list is empty and navigation and counting stay well-defined.", "quantifier": "every state and every unparseable text", "why_tests_cant": "all states (the code violates it: the old selection is kept, counters are stale, navigation dereferences null)", "anchors": ["src/modellist.cpp: openDiff, parseAndOpenDiff, parseDiffOutput, clear, slotNextDifference"]}
{"id": "C46", "title": "Comparing dispatches on what the two sides are", "statement": "compare(): two directories are compared as directories; a directory and a file are blended with the file as diff, in either order; of two files, if exactly one is a diff it is blended into the other, in either order; otherwise the files are compared; source and destination are swapped exactly when the diff (or file) came first.", "quantifier": "every combination of kinds of source and destination", "why_tests_cant": "finite decision table over unbounded info contents", "anchors": ["src/modellist.cpp: ModelList::compare", "src/info.cpp: swapSourceWithDestination"]}
{"id": "C47", "title": "Command line represents the settings", "statement": "The command line for diff, read the way getopt reads it, has exactly the options that are switched on in the settings with their values, in particular every exclude pattern and regular expression as the argument of its option whatever its text, and exactly the two operands after '--'.", "quantifier": "every settings record, every pair of operands", "why_tests_cant": "all settings with arbitrary strings (including strings that look like options)", "anchors": ["src/kompareprocess.cpp: KompareProcess::KompareProcess, writeCommandLine, writeDefaultCommandLine"]}
{"id": "C48", "title": "Settings survive save and load", "statement": "loadSettings after saveSettings restores every field, whatever the configuration held before; saving leaves all other entries alone; loading from an empty configuration gives the documented defaults.", "quantifier": "every settings record and every configuration", "why_tests_cant": "all settings and configurations", "anchors": ["src/diffsettings.cpp: loadSettings, saveSettings"]}
{"id": "C49", "title": "Swapping source and destination is a clean involution", "statement": "Info::swapSourceWithDestination exchanges url, local path and temporary directory of the two sides, leaves everything else, and applied twice is the identity.", "quantifier": "every Info", "why_tests_cant": "all values", "anchors": ["src/info.cpp: swapSourceWithDestination"]}
{"id": "C50", "title": "Result of the diff process", "statement": "When the diff process ends: crash -> its stderr is reported; exit code 0 -> 'identical' is reported; otherwise its output is parsed, blended with the source (unless only a diff is shown) and shown, or a parse error is reported; exactly one of these happens.", "quantifier": "every exit status, exit code and output", "why_tests_cant": "all outcomes", "anchors": ["src/kompareprocess.cpp: slotFinished", "src/modellist.cpp: slotDiffProcessFinished"]}
{"id": "C51", "title": "Diffs of files without a final newline are read completely in every format", "statement": "Normal and context diffs whose last lines carry a 'No newline at end of file' marker parse to differences with all their lines, as unified diffs do.", "quantifier": "every normal and context diff with such markers", "why_tests_cant": "the loss depends on the interaction of marker folding with the line patterns, for every position of the marker", "anchors": ["src/parser.cpp: Parser::cleanUpCrap", "src/parserbase.cpp: parseNormalHunkBody, parseContextHunkBody"]}
{"id": "C52", "title": "Normal diffs of several files are read without complaint", "statement": "A normal diff of several files, each introduced by the command line of diff, yields one model per file with its names and exactly its differences, and is not reported as malformed.", "quantifier": "every number of files, options, names, commands and lines", "why_tests_cant": "all documents", "anchors": ["src/parserbase.cpp: parseNormalDiffHeader, parseNormal, checkHeader"]}
{"id": "C53", "title": "Context hunks of small files are read", "statement": "A context diff in which a side of a hunk has no line or one line (printed as one number by diff -c) is read like any other: the hunk, its differences and all files after it are there.", "quantifier": "every context document", "why_tests_cant": "all documents (the code violates it)", "anchors": ["src/parserbase.cpp: m_contextHunkHeader2, m_contextHunkHeader3, parseContextHunkHeader, parseContextHunkBody"]}
{"id": "C54", "title": "CVS context diffs give names, revisions and time stamps", "statement": "Reading a context diff written by CVS yields for each file its names, the printed time stamps and exactly its hunks.", "quantifier": "every CVS context document", "why_tests_cant": "all documents (the code violates it for the time stamps)", "anchors": ["src/cvsdiffparser.cpp: CVSDiffParser::CVSDiffParser", "src/parserbase.cpp: parseContextDiffHeader"]}
{"id": "C55", "title": "Saving after comparing gives the chosen mixture of the two files", "statement": "Parse a unified diff between files A and B, blend A, apply and unapply differences in any order with saves in between: a successful save writes exactly the text in which every applied difference has A's lines and every other one has B's; nothing applied gives B, everything applied gives A, byte for byte.", "quantifier": "every unified document, every pair of files it turns into each other, every history and moment of blending", "why_tests_cant": "end to end over all diffs, files and histories", "anchors": ["src/parserbase.cpp: parseUnified", "src/modellist_p.cpp: blendFile", "src/diffmodel.cpp: applyDifference, applyAllDifferences", "src/modellist.cpp: saveDestination"]}
{"id": "C56", "title": "Saving gives the chosen mixture for every diff format", "statement": "The same holds when the diff is in normal or context format (the format is a user setting).", "quantifier": "every normal and context diff, every pair of files, every history", "why_tests_cant": "all diffs, files and histories (the code violates it)", "anchors": ["src/parserbase.cpp: parseNormalHunkBody, parseContextHunkBody", "src/modellist_p.cpp: blendFile", "src/modellist.cpp: saveDestination"]}
{"id": "C57", "title": "The list stays usable while diff runs and after it fails", "statement": "While a diff process is running (compare(), refresh(), swap()) and after it ended with output that cannot be parsed, every enabled action can be triggered without undefined behaviour, and nothing selected has been deleted.", "quantifier": "every state of the list, every moment of the process", "why_tests_cant": "all interleavings of the process with other operations (the code violates it)", "anchors": ["src/modellist.cpp: ModelList::clear, compare, refresh, slotDiffProcessFinished, parseDiffOutput", "src/modellist_p.cpp: lastModel, updateModelListActions", "src/diffmodellist.h: ~DiffModelList"]}
{"id": "C58", "title": "A failed save can be repeated", "statement": "After slotSaveDestination the save action is enabled exactly when the selected model still has unsaved changes (in read-write mode).", "quantifier": "every state and every outcome of the file operations", "why_tests_cant": "all failure points (the code violates it: the action is disabled also when saving failed)", "anchors": ["src/modellist.cpp: ModelList::slotSaveDestination"]}
{"id": "C59", "title": "Every change of the selection is announced with the right values", "statement": "Every navigation, selection, apply and unapply action ends with a selection signal that carries the model and difference selected now (the difference alone only when the model stays the same), followed by status bar information with the index of the model, the index of the difference, the number of models, of differences and of applied differences.", "quantifier": "every reachable state and every such operation", "why_tests_cant": "all states and operations", "anchors": ["src/modellist.cpp: slotNextDifference, slotPreviousDifference, slotNextModel, slotPreviousModel, slotSelectionChanged, slotActionApplyDifference, slotActionUnApplyDifference"]}
{"id": "C60", "title": "saveDiff compares the same two files", "statement": "The diff run for saveDiff(url, directory, settings) in that directory opens exactly the two local files of the comparison, whether or not they lie below the directory and however the directory is written.", "quantifier": "every pair of local files, every directory, every settings", "why_tests_cant": "all paths (the code violates it for a directory written without a trailing slash)", "anchors": ["src/modellist.cpp: ModelList::saveDiff", "src/kompareprocess.cpp: constructRelativePath, KompareProcess::KompareProcess"]}
{"id": "C61", "title": "A finished saveDiff has written the diff", "statement": "When the end of writing is announced after saveDiff, the file at the url holds what diff printed and no other file has changed; existing files are not overwritten and a failing diff writes nothing.", "quantifier": "every url, every state of the files, every outcome of the copy", "why_tests_cant": "all failure points (the code violates the first part: the result of the copy is ignored)", "anchors": ["src/modellist.cpp: ModelList::saveDiff, slotWriteDiffOutput"]}
{"id": "C62", "title": "The destination file holds what was saved last", "statement": "After two files were compared, and after every later sequence of operations on the list (with saves succeeding or failing), the destination file is the source file with exactly those changes worked in that were not applied at the last successful save (before the first one: all of them, i.e. it is as it was); when nothing is reported unsaved, those are the changes not applied now. No other file is written.", "quantifier": "every pair of files, every unified diff of them, every history of operations and file system outcomes", "why_tests_cant": "all histories of user actions interleaved with failing saves", "anchors": ["src/modellist.cpp: slotDiffProcessFinished, saveDestination, slotSaveDestination, saveAll", "src/modellist_p.cpp: blendFile", "src/diffmodel.cpp: applyDifference, applyAllDifferences"]}
{"id": "C63", "title": "Each destination file of a directory comparison holds what was saved last", "statement": "When two directories were compared, the same holds file by file: the file of each patch lies below the destination url at the path the patch names, it is its source file with the changes worked in that were not applied at the last successful save of that file, and no other file is written.", "quantifier": "every pair of directories, every diff of them about any number of files, every history", "why_tests_cant": "all histories, all paths, all sets of files", "anchors": ["src/modellist.cpp: saveDestination, saveAll, slotDiffProcessFinished", "src/modellist_p.cpp: blendOriginalIntoModelList, blendFile", "src/diffmodel_p.h: splitSourceInPathAndFileName"]}
{"id": "C64", "title": "Saving writes the files that were opened", "statement": "Saving only ever writes the destination (below the destination when directories are compared), each file of the list to its own place; when a diff is blended into a file or directory it is that file or directory that is written.", "quantifier": "every mode, every state of the list, every operation", "why_tests_cant": "all modes and histories (the code violates it when blending: the diff itself is overwritten, by every file in turn)", "anchors": ["src/modellist.cpp: saveDestination, saveAll, openFileAndDiff, openDirAndDiff"]}
{"id": "C65", "title": "Format detection", "statement": "The format of a diff is told by its first line that has the shape of a hunk header or file header of some format (a normal command, an ed command, an RCS command, '--- ', '*** ', and '@@' or fifteen stars for Perforce; for CVS a name and a tab must follow); if no line has, the format is unknown. Ed, RCS and unknown documents give no models and are not called malformed.", "quantifier": "every text", "why_tests_cant": "all texts", "anchors": ["src/diffparser.cpp: DiffParser::determineFormat", "src/cvsdiffparser.cpp: CVSDiffParser::determineFormat", "src/perforceparser.cpp: PerforceParser::determineFormat", "src/parserbase.cpp: ParserBase::parse, parseEd, parseRCS"]}
{"id": "C66", "title": "What an edit of the text does not reach", "statement": "An edit reported with linesChanged() shows in what is saved and in the recreated diff; the number of applied differences counts the inserted ones.", "quantifier": "every model, every edit", "why_tests_cant": "all models and edits (the code violates it: hunks, saved text, recreated diff, applied count and selection are exactly as before the edit)", "anchors": ["src/diffmodel.cpp: DiffModel::linesChanged, recreateDiff, appliedCount", "src/modellist.cpp: saveDestination"]}
{"id": "C67", "title": "Edits mixed with applying and unapplying everything", "statement": "Editing lines (linesChanged) and applyAllDifferences(true/false) in any order, the edits while everything is applied: no call has undefined behaviour, and at every moment the differences describe the edited text, or the source text when everything is unapplied, as a patch of the source, with tracking line numbers into that text.", "quantifier": "every text, every sequence of edits and applyAllDifferences calls", "why_tests_cant": "all sequences", "anchors": ["src/diffmodel.cpp: DiffModel::linesChanged, applyAllDifferences"]}
{"id": "C68", "title": "Applying one difference after edits", "statement": "After edits, applying or unapplying one difference moves the tracking line numbers of the differences after it, so the differences go on describing the text.", "quantifier": "every text, every sequence of edits, every difference", "why_tests_cant": "all sequences (the code violates it: inserted differences are connected to nothing)", "anchors": ["src/diffmodel.cpp: DiffModel::linesChanged, slotDifferenceApplied", "src/diffmodel_p.cpp: computeDiffStats"]}
{"id": "C69", "title": "Any calls on a model with edits in between", "statement": "Any sequence of navigation, selection, apply and edit calls has no undefined behaviour and the selected difference stays one of the listed differences.", "quantifier": "every sequence of calls", "why_tests_cant": "all histories (the code violates it: an edit can remove the selected difference, and the list can become empty)", "anchors": ["src/diffmodel.cpp: firstDifference, lastDifference, nextDifference, prevDifference, setSelectedDifference, applyDifference, applyAllDifferences, linesChanged"]}
{"id": "C70", "title": "Tracking line numbers are places in the saved file", "statement": "After any history of applying, unapplying and saving, the tracking line number of a difference is the line of the saved file where its lines are.", "quantifier": "every diff, every file it fits, every history", "why_tests_cant": "all diffs, files and histories (the code violates it: tracking numbers follow the opposite reading of applied)", "anchors": ["src/diffmodel.cpp: slotDifferenceApplied, applyAllDifferences", "src/modellist.cpp: saveDestination", "src/difference.cpp: trackingDestinationLineEnd"]}
{"id": "C71", "title": "Destroying a model", "statement": "Destroying a DiffModel deletes each of its differences exactly once and leaves none of them, whatever was done with it before.", "quantifier": "every diff in every format, every blended file, every sequence of calls", "why_tests_cant": "all histories (nothing is deleted twice; but the code leaks the differences that are not in the list: common lines, lines added by blending, differences removed by an edit)", "anchors": ["src/diffmodel_p.cpp: DiffModelPrivate::~DiffModelPrivate", "src/diffhunk.cpp: DiffHunk::~DiffHunk", "src/diffmodel.cpp: DiffModel::linesChanged, DiffModel::~DiffModel"]}
{"id": "C72", "title": "Copies of the public values", "statement": "A copied DifferenceString, a copied DiffModelList and an assigned DiffModel are equal to the original and independent of it: each can be used and destroyed.", "quantifier": "every string with every marker list, every list of models, every pair of models", "why_tests_cant": "all values (the code violates it: copies share the markers and the models and delete them twice; assignment does not copy hunks and differences)", "anchors": ["src/differencestring.cpp: DifferenceString", "src/differencestring_p.h: DifferenceStringPrivate", "src/diffmodellist.cpp: DiffModelList", "src/diffmodel.cpp: DiffModel::operator="]}
{"id": "C73", "title": "Reading files in the chosen encoding", "statement": "The text of a file does not depend on how it is cut into the blocks that are read; the encoding is the one set, the system's for 'default' (in any case) and for names that are not known; a UTF-8 file is read as its characters, without the byte order mark.", "quantifier": "every encoding, every file, every way of cutting it into blocks", "why_tests_cant": "all files and block boundaries (a character may lie across two blocks)", "anchors": ["src/modellist_p.cpp: ModelListPrivate::readFile", "src/modellist.cpp: ModelList::setEncoding", "src/kompareprocess.cpp: KompareProcess::setEncoding"]}
{"id": "C74", "title": "Saving keeps the bytes of the file", "statement": "Saving writes the file in the encoding it was read in: the parts that were not changed keep their bytes, and with every difference applied the saved file is the source file byte for byte.", "quantifier": "every encoding, every file, every diff of it, every history", "why_tests_cant": "all files, encodings and histories (the code always writes UTF-8, drops the byte order mark and replaces what it could not read)", "anchors": ["src/modellist.cpp: saveDestination, slotWriteDiffOutput, setEncoding", "src/modellist_p.cpp: ModelListPrivate::readFile"]}
{"id": "C75", "title": "Comparing a text with a file", "statement": "Comparing a text with a file, or a file with a text, works as comparing two files: what is saved is the source (text or file) with the changes worked in that are not applied.", "quantifier": "every text and file, every diff of them, every history", "why_tests_cant": "all texts, diffs and histories (the code violates it for a text compared with a file: the text is taken for a file name, nothing is blended in, and saving drops every line outside the hunks)", "anchors": ["src/modellist.cpp: slotDiffProcessFinished, blendOriginalIntoModelList, saveDestination", "src/kompareprocess.cpp: KompareProcess"]}
{"id": "C76", "title": "Perforce documents read back", "statement": "A diff printed by Perforce, in unified, context or normal form and of any number of files, is read without complaint into one model for each file, with the two file names of its header and with the hunks, line numbers and lines that were printed.", "quantifier": "every document: files, names, revisions, hunks, lines, other lines around them", "why_tests_cant": "all documents (the code loses the new name if no number sign follows it, as in the output of p4 diff, and both names if the file type follows the revision, as in the output of p4 diff2)", "anchors": ["src/perforceparser.cpp: PerforceParser::parseUnifiedDiffHeader, parseContextDiffHeader, parseNormalDiffHeader, determineFormat", "src/parser.cpp: Parser::determineGenerator", "src/parserbase.cpp: checkHeader"]}
{"id": "C77", "title": "Line numbers stay inside int", "statement": "Reading a diff never overflows an int, whatever numbers stand in its hunk headers, and neither does applying and unapplying its differences.", "quantifier": "every text, every history of applying, unapplying and saving", "why_tests_cant": "all texts and histories (the code violates it for header numbers close to the greatest int, and such an overflow is undefined behaviour)", "anchors": ["src/parserbase.cpp: ParserBase::parseUnifiedHunkBody, parseContextHunkBody", "src/parser.cpp: Parser::cleanUpCrap", "src/diffmodel.cpp: DiffModel::slotDifferenceApplied, applyAllDifferences", "src/difference.cpp: Difference::trackingDestinationLineEnd"]}
{"id": "C78", "title": "One run of diff after another", "statement": "compare, refresh, swap and saveDiff may be called in any order and at any time, also while an earlier run of diff has not ended: nothing undefined happens, the list and the saved diffs do not disturb each other, and every run that is announced is followed by exactly one message of its end.", "quantifier": "every history of calls and of ends of diff, every output, exit code and way of ending of each run, runs that cannot be started", "why_tests_cant": "all histories of calls interleaved with the ends of processes (the code violates it when a call comes before the run before has ended, and does not tell of every end)", "anchors": ["src/modellist.cpp: ModelList::compare, refresh, swap, saveDiff, slotDiffProcessFinished, slotWriteDiffOutput", "src/kompareprocess.cpp: KompareProcess::slotFinished"]}
{"id": "C79", "title": "Working with two files again and again", "statement": "Comparing two files, applying and saving, refreshing or swapping the sides, any number of times: if diff is right about the files each time, then after each round the destination of that round is its source with the changes worked in that were not applied at the last save, no other file changes, and the list shows what was done.", "quantifier": "every two files, every number of rounds, every right output of diff in each, every history of operations between them", "why_tests_cant": "all sequences of rounds, of any length, each starting from the files the rounds before have left", "anchors": ["src/modellist.cpp: ModelList::refresh, swap, slotDiffProcessFinished, saveDestination, saveAll, blendFile", "src/diffmodel.cpp: DiffModel::applyDifference"]}
{"id": "C80", "title": "A diff opened together with its file", "statement": "After a diff has been opened together with the file it is about, whatever is applied, unapplied and saved: when nothing is unsaved, the place of saving holds the file with exactly those changes worked in that are not applied, and no other file is touched.", "quantifier": "every file, every diff of it, every setting of applied, every history of operations and saves", "why_tests_cant": "all files, diffs and histories (the code violates it before the first save: opened with the differences applied, unapplying them all leaves nothing unsaved although the file with the changes was never written)", "anchors": ["src/modellist.cpp: ModelList::openFileAndDiff, saveDestination, saveAll", "src/modellist_p.cpp: ModelListPrivate::setDepthAndApplied", "src/diffmodel.cpp: DiffModel::applyAllDifferences", "src/difference.cpp: Difference::apply"]}
{"id": "C81", "title": "Normal diffs printed by CVS", "statement": "A normal diff printed by CVS, of any number of files, is read without complaint into one model for each file, with the name of its Index line on both sides and one difference for each command.", "quantifier": "every such diff: files, names, lines between the name and the commands, commands, lines", "why_tests_cant": "all documents (the code violates it: a file is read only if its commands follow the Index line at once, which CVS never prints, and every such diff is reported as malformed)", "anchors": ["src/cvsdiffparser.cpp: CVSDiffParser::parseNormalDiffHeader, determineFormat", "src/parserbase.cpp: ParserBase::parseNormal, parseNormalHunkHeader, checkHeader"]}
{"id": "C82", "title": "A saved diff can be opened again", "statement": "When saveDiff() has written a diff to a new file, the file has the very bytes that diff printed; opening that file later with openDiff() shows, without complaint, one model for each file with the names, hunks and lines that diff printed, nothing applied or unsaved, the first difference selected.", "quantifier": "every diff output (files, names, hunks, lines, characters of any length), every way the file is read in blocks, every state of the list that opens it", "why_tests_cant": "two independent passes through decoding and encoding, and all documents (the code violates it for encodings other than UTF-8: the file is always written in UTF-8 and read in the encoding that is set)", "anchors": ["src/modellist.cpp: ModelList::saveDiff, slotWriteDiffOutput, openDiff, parseAndOpenDiff", "src/kompareprocess.cpp: KompareProcess::slotFinished", "src/modellist_p.cpp: ModelListPrivate::readFile"]}
{"id": "C83", "title": "Read-only means no editing", "statement": "A ModelList made without support for writing, or one for which setReadWrite(false) was called last, has none of the actions apply, unapply, apply all, unapply all and save enabled, whatever has happened to it; isReadWrite() is what was set last.", "quantifier": "every sequence of calls with any arguments, ends of the diff process and changes of models by their holders; every answer of the file system", "why_tests_cant": "an invariant over all histories, also those in which opening fails", "anchors": ["src/modellist.cpp: ModelList::ModelList, setReadWrite, slotSaveDestination", "src/modellist_p.cpp: ModelListPrivate::updateModelListActions"]}
{"id": "C84", "title": "The models of the list are alive", "statement": "At any time, modelAt(i) gives a model that has not been deleted for each i below modelCount(), and a different one for each.", "quantifier": "every sequence of calls with any arguments, ends of the diff process and changes of models by their holders", "why_tests_cant": "validity of pointers over all histories", "anchors": ["src/modellist.cpp: ModelList::parseDiffOutput, clear, modelAt, modelCount", "src/diffmodellist.h: DiffModelList::~DiffModelList"]}
{"id": "C85", "title": "Replaced models are freed", "statement": "When a diff is opened or a comparison started while models are shown, the models shown before are deleted, so the number of living models does not grow with the number of openings.", "quantifier": "every diff, every number of openings, every history", "why_tests_cant": "all histories (the code violates it: the list is emptied with QList::clear() first, so the models are forgotten and never deleted)", "anchors": ["src/modellist.cpp: ModelList::clear, compare, openDiff, parseAndOpenDiff, parseDiffOutput", "src/diffmodellist.h: DiffModelList::~DiffModelList"]}
{"id": "C86", "title": "Files change only when saving is asked for", "statement": "Whatever happens to a ModelList, a file has changed in the end only if at some moment saving was asked for, and then only the destination of that moment (a file in it, for directories).", "quantifier": "every sequence of calls with any arguments, every file system and outcome of its operations, every url", "why_tests_cant": "all histories and all files", "anchors": ["src/modellist.cpp: ModelList::saveDestination, slotSaveDestination, saveAll and all other public functions"]}
{"id": "C87", "title": "No stale pointer after any calls", "statement": "Any sequence of the calls of a DiffModel, edits included, each made with its precondition met, has no undefined behaviour and leaves every difference the model refers to alive.", "quantifier": "every model whose pointers are good, every sequence of calls", "why_tests_cant": "all call sequences", "anchors": ["src/diffmodel.cpp: DiffModel::linesChanged, firstDifference, nextDifference, applyDifference, applyAllDifferences, setSelectedDifference"]}
{"id": "C88", "title": "No difference is deleted twice", "statement": "Destroying a DiffModel is defined whatever was done with it before, and deletes exactly the differences that are in its list.", "quantifier": "every diff in every format, every blended file, every sequence of calls with their preconditions met", "why_tests_cant": "all histories", "anchors": ["src/diffmodel_p.cpp: DiffModelPrivate::~DiffModelPrivate", "src/diffmodel.cpp: DiffModel::linesChanged"]}
{"id": "C89", "title": "A failed save loses nothing", "statement": "If saving a model with unsaved changes does not write its file, an error is signalled and the model is as before, with its changes still unsaved; a save that writes leaves nothing unsaved.", "quantifier": "every model, every outcome of every file operation", "why_tests_cant": "all combinations of failures for all models", "anchors": ["src/modellist.cpp: ModelList::saveDestination"]}
{"id": "C90", "title": "Changes made while a save waits are not lost", "statement": "A save waits for file operations in event loops of its own. Whatever happens meanwhile, further saves included, when no save is under way and a model says it has no unsaved changes after a successful save, the destination holds its text; and only texts that a model had are ever written.", "quantifier": "every list, every file system, every interleaving of saves, their file operations with any outcome, and all other calls", "why_tests_cant": "all schedules (the code violates it: everything is marked as saved when the copy ends, also what was changed since the text was taken)", "anchors": ["src/modellist.cpp: ModelList::saveDestination, slotSaveDestination, saveAll"]}
{"id": "C91", "title": "A save goes where it was asked to go", "statement": "Whatever happens while a save waits for its file operations, the text is written to the destination that was compared when saving was asked for.", "quantifier": "every list, every file system, every interleaving of saves, their file operations with any outcome, and all other calls", "why_tests_cant": "all schedules (the code violates it for single files: the destination is looked up again after the first wait)", "anchors": ["src/modellist.cpp: ModelList::saveDestination, slotKompareInfo"]}
{"id": "C92", "title": "A save that waits is safe", "statement": "Whatever happens while a save waits for its file operations, also the end of diff, opening and refreshing, going on with the save is defined.", "quantifier": "every interleaving of saves, their file operations with any outcome, and all other calls and events", "why_tests_cant": "all schedules (the code violates it: the models may be deleted and the list that saveAll goes through be replaced meanwhile)", "anchors": ["src/modellist.cpp: ModelList::saveDestination, saveAll, parseDiffOutput, slotDiffProcessFinished, clear"]}
{"id": "C93", "title": "Copying a saved diff does not disturb what is started meanwhile", "statement": "While the diff that saveDiff() has made is copied to its place, comparisons and further saveDiff() calls may be made: nothing undefined happens, they end as usual, and the diff is written where it was to be written.", "quantifier": "every state, every interleaving of the copies with calls and ends of processes", "why_tests_cant": "all schedules (the code violates it: after the copy the current process and temporary file are deleted, whoever they belong to)", "anchors": ["src/modellist.cpp: ModelList::slotWriteDiffOutput, saveDiff, compare, refresh, swap"]}
{"id": "C94", "title": "What a living model refers to is there", "statement": "At any time, nothing that a living model refers to (its differences, those of its hunks, its selected difference) is gone, so that hasUnsavedChanges(), recreateDiff(), saveDestination(), saveAll(), the calls of DiffModel with their preconditions met, and deleting the model are all defined.", "quantifier": "every sequence of calls with any arguments, ends of the diff process with any output, and calls and edits of models by their holders", "why_tests_cant": "validity of pointers over all histories", "anchors": ["src/modellist.cpp: ModelList (all slots and calls)", "src/diffmodel.cpp: DiffModel (all calls)", "src/parserbase.cpp: parse", "src/modellist.cpp: ModelList::blendOriginalIntoModelList, blendFile"]}
{"id": "C95", "title": "The selection is alive", "statement": "At any time, what selectedModel() and selectedDifference() give is null or has not been deleted.", "quantifier": "every sequence of calls with any arguments, ends of the diff process with any output, and calls and edits of models by their holders", "why_tests_cant": "validity of pointers over all histories (the code violates it: when the output of diff cannot be read, the models are deleted and the selection is kept)", "anchors": ["src/modellist.cpp: ModelList::parseDiffOutput, slotDiffProcessFinished, selectedModel, selectedDifference, slotSelectionChanged and the other slots", "src/modellist_p.cpp: firstModel, nextModel, prevModel, lastModel, setSelectedModel"]}
{"id": "C96", "title": "A caller who respects the preconditions meets no undefined behaviour", "statement": "In every history in which each call meets its stated precondition (steps need a list with differences in each model; selecting needs a living model with differences; applying needs a selected difference; comparing, opening and the end of diff need information and a text that the parser can read; unreadable output does not arrive while models are shown) nothing is undefined, and all queries are defined.", "quantifier": "every history of calls, ends of processes, edits by the holders of models; every content of the disk, every output of diff, every outcome of file operations", "why_tests_cant": "safety over all histories; a test shows single runs only", "anchors": ["src/modellist.cpp: ModelList (all slots, calls and queries)", "src/modellist_p.cpp: all functions", "src/modellist.h: ModelList"]}
{"id": "C97", "title": "What a diff gives is determined by its lines, malformed or not", "statement": "For every text that is recognised as a normal, context or unified diff, from diff, CVS or Perforce, whatever its lines: which lines are file headers, hunk headers, removed, added, changed or common lines, which are skipped, which models, hunks and differences they give, with which lines and numbers, and whether the diff is called malformed follows from the lines by the rules of a grammar given on its own (SpecLines.v); two readings by the rules never differ. A normal diff that is not from Perforce is well-formed exactly if it is commands from its first line to its last.", "quantifier": "every text in the three formats from each generator, well-formed or not", "why_tests_cant": "all texts, malformed ones in particular, of which tests only sample a few", "anchors": ["src/parserbase.cpp: ParserBase::parseContext, parseContextDiffHeader, parseContextHunkHeader, parseContextHunkBody, parseNormal, parseNormalDiffHeader, parseNormalHunkHeader, parseNormalHunkBody, parseUnified, parseUnifiedDiffHeader, parseUnifiedHunkHeader, parseUnifiedHunkBody", "src/cvsdiffparser.cpp: CVSDiffParser", "src/perforceparser.cpp: PerforceParser", "src/diffparser.cpp: DiffParser"]}
{"id": "C98", "title": "Getters give what was set last", "statement": "After any sequence of calls of the setters of a model, a hunk or a difference, each getter gives the argument of the last call of its own setter, or its first value; lines, hunks and differences that were added come after those there were, in order; counts, ends and the headings of the recreated diff follow from these; the unsaved mark has changed, since it was set last, as often as the difference was really applied or unapplied. The calls are undefined only if a difference that does not exist is added.", "quantifier": "every model, hunk and difference, every sequence of setter calls with any arguments", "why_tests_cant": "all sequences of calls; the library itself calls most setters in one fixed order, so that its tests cannot show an exchanged field", "anchors": ["src/diffmodel.cpp: DiffModel::setSourceFile, setDestinationFile, setSourceTimestamp, setDestinationTimestamp, setSourceRevision, setDestinationRevision, setBlended, setDiffIndex, addHunk, addDiff, recreateDiff", "src/difference.cpp: Difference::setTrackingDestinationLineNumber, setConflict, setUnsaved, setType, addSourceLine, addDestinationLine, apply, applyQuietly", "src/diffhunk.cpp: DiffHunk::setType, add"]}
{"id": "C99", "title": "A listener knows the list and the selection", "statement": "Somebody who only listens to modelsChanged() and setSelection() has, after each call, the list, the model and the difference that models(), selectedModel() and selectedDifference() give.", "quantifier": "every sequence of calls with any arguments, ends of the diff process with any output", "why_tests_cant": "all histories (the code violates it: when a text cannot be read, the list is deleted and nobody is told)", "anchors": ["src/modellist.cpp: ModelList::modelsChanged, setSelection, show, clear, parseDiffOutput, blendOriginalIntoModelList, openDiff, parseAndOpenDiff, openFileAndDiff, openDirAndDiff, compare, slotDiffProcessFinished, slotSelectionChanged, slotNextDifference, slotPreviousDifference, slotNextModel, slotPreviousModel"]}
{"id": "C100", "title": "What the Info of a list says", "statement": "After any call, the Info that was given says what it said before, except that compare() sets the mode and exchanges the two sides when the diff is the source, and that reading a text as a diff, whatever comes of it, records the generator and the format of that text. A second compare() of the same things changes neither sides nor mode.", "quantifier": "every state, call and event, every outside", "why_tests_cant": "all states and calls; callers read mode, sides, generator and format from the Info they gave", "anchors": ["src/modellist.cpp: ModelList::compare, parseDiffOutput, slotKompareInfo", "src/info.cpp: Info::swapSourceWithDestination", "src/info.h: Info"]}
{"id": "C101", "title": "What a slot finds when it is called", "statement": "A slot connected to a signal of a list (modelsChanged, setSelection, setStatusBarModelInfo, applyDifference, applyAllDifferences, error, status, diffString) finds the list as the signal says: the selection it announces is selectedModel() and selectedDifference(), the numbers for the status bar are currentModel(), currentDifference(), modelCount(), differenceCount() and appliedCount(), the list it announces is the list, the differences said to be applied are applied; unless a selection was asked for that is not there. It can ask every question, and the answers fit together: they are those of the list after the call, or between two steps of it; and the actions are enabled accordingly.", "quantifier": "every state, every call and event with any arguments, every signal emitted by it", "why_tests_cant": "all states and calls, and every moment within a call at which foreign code runs; a test sees the state after the call (the code violates the last sentence while a list is opened: at modelsChanged() there is no list or an empty one with the old selection, and when diff's output is malformed the selected model has been deleted; and while a slot is told of a move the actions are still the old ones)", "anchors": ["src/modellist.cpp: ModelList::slotSelectionChanged, slotNextDifference, slotPreviousDifference, slotNextModel, slotPreviousModel, slotApplyDifference, slotApplyAllDifferences, slotActionApplyDifference, slotActionUnApplyDifference, saveDestination, saveAll, slotSaveDestination, clear, show, parseDiffOutput, parseAndOpenDiff, openDiff, openFileAndDiff, openDirAndDiff, compare, slotDiffProcessFinished"]}
{"id": "C102", "title": "A slot may call the list back", "statement": "A slot connected to the signals of a list may call the list itself, and the signals of these calls are told to the same slots, to any depth: when slots move through the list, apply, save, or open another text that can be read, the call that emitted the signal goes on with the list as they left it; nothing dangles, a list that showed something still shows something, and after a move the actions fit what is shown then. What a signal says is true of the list when the slot is called, whatever slots called before have changed. How deep the calls are within each other makes no difference to the outcome.", "quantifier": "every state, every call and signal, every choice of calls that the slots make by looking at the signal and at the list, at every depth", "why_tests_cant": "all slots and all nestings of calls; a test has one slot that calls one thing (the code violates it for slots that call the list while a text is being read, that open another text during saveAll(), that start diff from the signals of its end, or that start diff and wait for it when it is about to run; and a slot that selects what it is told of is called without end)", "anchors": ["src/modellist.cpp: ModelList::slotSelectionChanged, slotNextDifference, slotPreviousDifference, slotNextModel, slotPreviousModel, slotApplyDifference, slotApplyAllDifferences, slotActionApplyDifference, slotActionUnApplyDifference, saveDestination, saveAll, slotSaveDestination, clear, show, parseDiffOutput, parseAndOpenDiff, openDiff, openFileAndDiff, openDirAndDiff, compare, refresh, swap, slotDiffProcessFinished"]}
{"id": "C103", "title": "Working with a diff does not change what it says", "statement": "Whatever is called on a list, and whatever the slots call in return: the names, time stamps, revisions, hunks and line numbers of a model and the type, lines and line numbers of each of its differences are what they were, as long as the model is there and none of its own functions (linesChanged() and the like) is called; so recreateDiff() prints the same text at every time. Which differences are applied changes only in the calls that apply, and applying one difference changes that one only.", "quantifier": "every list in any state, every history of calls with any arguments and outcomes (moves, selections, applying, saving, blending, comparing, opening), every nesting of calls from slots", "why_tests_cant": "all states and all histories, also those in which something else has gone wrong; a test looks at one diff after a few calls", "anchors": ["src/modellist.cpp: all slots, saveDestination, saveAll, parseDiffOutput, blendOriginalIntoModelList, recreateDiff", "src/modellist_p.cpp: blendFile, setDepthAndApplied", "src/diffmodel.cpp: applyDifference, applyAllDifferences, recreateDiff, slotDifferenceApplied", "src/difference.cpp: apply, applyQuietly, recreateDifference", "src/diffhunk.cpp: recreateHunk"]}
{"id": "C104", "title": "Diffs with Windows line ends", "statement": "A diff whose lines end in a carriage return and a line feed is read as the same diff with plain line feeds: the same format, files, hunks, positions, types of differences and verdict on malformed input; only the lines keep the carriage return that was theirs.", "quantifier": "every list of lines, well-formed or not, of every format, each with either line end", "why_tests_cant": "all texts of all formats; the tests' samples come from one platform", "anchors": ["src/parserbase.cpp: constructor (patterns), parseContext*, parseNormal*, parseUnified*, checkHeader", "src/perforceparser.cpp: parseUnifiedDiffHeader", "src/parser.cpp: Parser::parse, cleanUpCrap, determineGenerator", "src/diffparser.cpp, src/cvsdiffparser.cpp: determineFormat"]}
{"id": "C105", "title": "Diffs that git prints", "statement": "Every file in a diff printed by git is read as printed (names, hunks, positions, types and lines of the differences), whatever the names of the files are; if a file is not read, the diff is said to be malformed.", "quantifier": "every diff in git's format: any files, names, hunks and lines, with or without a newline at the end of a file", "why_tests_cant": "all such diffs (the code violates it for names with a blank, after which git prints a TAB: files are lost without a complaint); tests have a few samples", "anchors": ["src/parserbase.cpp: patterns of the unified headers, parseUnifiedDiffHeader, checkHeader, parseUnifiedHunkHeader, parseUnifiedHunkBody, parseUnified", "src/diffparser.cpp: determineFormat", "src/parser.cpp: Parser::parse, cleanUpCrap, determineGenerator"]}
{"id": "C106", "title": "Lines between the files of a unified diff", "statement": "Whatever lines stand before, between and after the files of a unified diff (as long as they do not look like headers of files or hunks), every file is read as printed, and the diff is said to be malformed exactly if the lines after some file begin neither with 'diff ', 'Index: ' nor '-- '.", "quantifier": "every unified diff with any files, hunks and lines, and any lines between them", "why_tests_cant": "all documents and all lines between; e.g. changes of properties printed by Subversion (the diff is said to be malformed, and read)", "anchors": ["src/parserbase.cpp: parseUnified, checkHeader, parseUnifiedDiffHeader, parseUnifiedHunkHeader, parseUnifiedHunkBody", "src/parser.cpp: Parser::parse, cleanUpCrap, determineGenerator", "src/diffparser.cpp, src/cvsdiffparser.cpp: determineFormat"]}
