# Formal model of KDE/libkomparediff2 in Rocq (Coq 8.16.1)

## Approach

The C++ in /repo/src is read as text and transcribed, function by function, into total, computable
Gallina functions (`rocq/theories/*.v`, logical name `Verif`). Every model definition cites the file
and lines it models and says where it simplifies. Undefined behaviour (bad dereference, index outside
a container, null pointer) is a distinct outcome `UB why` of the result type `res`, never a default
value; loops are structural recursion, or recursion on fuel with a distinct outcome `OutOfFuel` which
a theorem (C15) shows not to occur for the fuel the model passes. The theorems say either that the
outcome is `Ok` with a specified value, or, where the code has undefined behaviour, that it is `UB`.

Four kinds of files:

* model files (definitions only):
  `Base QtStr Lev Diff Save LinesChanged Regex Patterns Parser Paths Blend Info ModelList Settings
  Process SaveDiff World Memory Codec Ints Jobs Rounds Life LifeWorld`
* specification files `Spec*.v`: small, independent of the model's helpers (they share with the model
  only the record types of the public classes and the marker type)
* proof files `P*.v` (other than `Props*.v`)
* property files `Props*.v`: the property theorems, each followed by `Print Assumptions`, and
  `Example`s showing that concrete, non-trivial cases meet the hypotheses.

`Conformance.v` runs the repository's own unit tests on the model (tests, not proofs: they support the
reading of the C++).

## Conventions

* A `QChar` is an `N` (UTF-16 code unit), a `QString` a `list N`.
* `int` line numbers are unbounded `Z` in Parser.v; Ints.v has the parsers' arithmetic with the range of
  int checked, and C77 says when the two agree (other line numbers: texts of 2^31 lines and more are out
  of scope). `QString::toInt` out of range *is* modelled (it returns 0). 32-bit unsigned wrap *is*
  modelled in the size and the index of the Levenshtein table and in the string hash.
* `QRegularExpression` is modelled by an abstract syntax with a backtracking matcher in continuation
  style (first success = PCRE's match); `Patterns.v` transcribes each pattern. `PRegexLang.v` proves
  that the matcher accepts exactly the language of `SpecRegex.v`.
* Pointers and sharing: a model owns a store of differences; its hunks and its list of differences refer
  to them by index. A pointer that dangles is an index outside the store: `UB`.
* The environment (file system, KIO jobs, processes, locale collation, qHash, std::sort) is a parameter
  of the functions, universally quantified in the theorems, with the contract it is assumed to meet in
  the theorem's statement.
* Refuted properties: where the English property is false of the code, `properties.jsonl` keeps it as a
  user would want it, the theorem with suffix `_refuted` exhibits a concrete run that violates it, and
  further theorems (suffix `_partial` where they are the property under additional hypotheses) say what
  is true. Such a property has the status `partial` in MANIFEST.json.

## What is modelled, file by file

| /repo/src | model | not modelled |
|---|---|---|
| levenshteintable.h, stringlistpair.*, differencestringpair.h | Lev.v | debug output |
| differencestring*, marker.h, difference*, diffhunk*, diffmodel* (all but linesChanged) | Diff.v, Setters.v (the setters the library does not call), Memory.v (destruction, copies) | localized type strings, QObject parenthood |
| diffmodel.cpp linesChanged | LinesChanged.v | |
| parser*.cpp, cvsdiffparser, diffparser, perforceparser, diffmodellist | Regex.v, Patterns.v, Parser.v, Ints.v | Ed and RCS parsers beyond returning null (they are stubs in the code); diagnostics |
| modellist*.cpp | Paths.v, Blend.v, Save.v, ModelList.v, SaveDiff.v, World.v, Codec.v, Jobs.v, Rounds.v, Life.v, LifeWorld.v, Nested.v, Copying.v, Signals.v, Reentrant.v | KActionCollection texts and icons, KMessageBox, the download of remote urls (its outcome is a parameter), QMimeDatabase (a parameter), codecs other than UTF-8 (a parameter) |
| kompareprocess.cpp, diffsettings.cpp | Process.v, Settings.v | the diff program itself (its output is a parameter; C62 and C63 assume it prints a correct unified diff), KConfig's file format beyond the text of one entry |
| info.cpp, kompare.h | Info.v | |

## The environment in World.v

A url is a text; a missing file reads as the empty text (as readFile does); creating the directory of a
file is an outcome given by the environment; a file operation that fails leaves the file alone. World.v, Rounds.v and
LifeWorld.v take a save as one step; Nested.v and Copying.v do not: other events happen while it waits for its file
operations. Receivers of the list's signals that ask the list are in Signals.v; receivers that call it back from within
the signal, to any depth, are in Reentrant.v.


## Per property: what is modelled and how it is proved

* **C01** Splitting a text into lines is lossless — `ModelList::split` over strings; structural induction. *proved.*
* **C02** Path escaping round-trips — `escapePath`/`unescapePath` with a model of `QString::replace`; the two successive replaces are shown to invert each other by induction over the string. *proved.*
* **C03** A model's path and file name partition its source and destination — `splitSourceInPathAndFileName` etc. as record updates with `lastIndexOf`/`mid`; history by induction; stale-directory counterexample as `_refuted`. *proved.*
* **C04** Depth strips exactly that many leading path components — `lstripSeparators` (Paths.v); refuted by a computed witness; a theorem for every depth says what is stripped (SpecText.v); the claim itself for depth 1. *partial (false of the code as stated: witness and what is true).*
* **C05** The character table computes the Levenshtein distance — `LevenshteinTable::createTable` as a flat-array program with 32-bit index arithmetic; loop invariant: cells filled so far = recursive distance; that = minimum over an inductive edit-script relation. *proved.*
* **C06** The line table computes the insert/delete distance — same program instantiated at line lists with no-replace cost. *proved.*
* **C07** Inline markers leave exactly common text unmarked — `createListsOfMarkers` route walk; invariant over the walk; marked set by the consumer's reading of markers. *proved.*
* **C08** Marker offsets are ordered and inside the string — same invariant. *proved.*
* **C09** Inline markers come in Start/End pairs — witness in PropsLev.v; PropsMarkers.v: invariant of each marker list of the route walk on its own (paired beyond the position, or waiting for its Start), SpecMarkers.v says which lists can result. *partial (false of the code as stated: witness and what is true).*
* **C10** Line markers describe a minimal edit script — route walk in no-replace mode; block decomposition of the two lists. *proved.*
* **C11** Table size limit — `setSize` with wrap-around; case analysis + computed witness of out-of-bounds write. *proved.*
* **C12** String equality is exact in spite of hashing — `DifferenceString` with hash; invariant hash = f(string) under all constructors/setters. *proved.*
* **C13** 'No newline' markers are folded into the preceding line — `cleanUpCrap` over line lists; induction. *proved.*
* **C14** Generator detection — `determineGenerator` (Parser.v); induction over the lines. *proved.*
* **C15** Parsing always terminates — fuelled loops; each round takes at least one line (PFuel.v), so the fuel the model passes is never used up. *proved.*
* **C16** Well-formed unified diffs parse to exactly their contents — printer of unified documents (SpecUnified.v) against the parser model; one simulation lemma per layer: header patterns (PHeaders, PFileHeads), hunk bodies (PUnifiedPrint), hunks, files and format (PUnifiedRead). *proved.*
* **C17** Recreating a parsed unified diff reproduces its text — `recreateDiff` of what C16 gives = the printer on canonical documents (PropsRecreate.v). *proved.*
* **C18** Recreated diffs are parseable for every parsed diff — witnesses; PropsRewritten.v: the text recreated from any document with stamps and newlines is the print of another document, which C16 reads back; `reread` relates the two; PropsUnstamped.v: headings without stamps do not match, so the file loop passes over their files or ends (`files_left`, `complaint_left` in SpecUnstamped.v). *partial (false of the code as stated: witness and what is true).*
* **C19** A recreated hunk header counts its body — `recreateHunk` over arbitrary hunks; induction. *proved.*
* **C20** Every parsed difference is typed by its contents — invariant of the unified hunk-body parser for every input; the other formats by induction over the grammar of C97 (PropsTyped.v). *proved.*
* **C21** Differences of a parsed hunk are contiguous — same invariant, line numbers. *proved.*
* **C22** No line is invented, lost or reordered inside a hunk — same invariant, consumed input slice. *proved.*
* **C23** Well-formed normal diffs parse to exactly their contents — printer of normal diffs (SpecNormal.v); PNormal.v, PNormalDoc.v. *proved.*
* **C24** Well-formed context diffs parse to exactly their contents — printer of context diffs (SpecContext.v); PContext.v, PContextDoc.v. *proved.*
* **C25** Parsed models are ordered by directory and file name — sort as an arbitrary function meeting the std::sort contract; uniqueness/permutation lemmas. *proved.*
* **C26** Malformed diffs are reported — refuted by computed witness; true part: what sets malformed. *partial (false of the code as stated: witness and what is true).*
* **C27** Parsing never has undefined behaviour — five witnesses of undefined behaviour; PDefined.v: none on inputs without these five (safe); SpecCrash.v, PCrash*.v, PropsCrash.v: exactly which texts are not read, by following the relational readings of C97 to the place of the crash. *partial (false of the code as stated: witness and what is true).*
* **C28** Tracking line numbers under any history of applying — `DiffModel` as a state machine over apply operations; invariant by induction over operations. *proved.*
* **C29** Applied count under any history — same state machine. *proved.*
* **C30** Unsaved flag tells whether the state differs from the last save — same state machine with save operation. *proved.*
* **C31** Order of applying does not matter — corollary of C28. *proved.*
* **C32** Editing the destination keeps the differences a correct patch — `linesChanged` transcribed; patch semantics as spec; block decomposition (C10). *proved.*
* **C33** linesChanged reports exactly what it changed — LinesChanged.v; the report equals the difference of the two lists; PropsTouched.v: exactly the differences that the edit reaches are removed. *proved.*
* **C34** Edits that restore the source leave no difference behind — same, minimality from C10. *proved.*
* **C35** linesChanged works for unapplied differences and large edits too — two witnesses; edits of any size: exactly when the differences describe the result (PropsOversize.v); C32 is the true part. *partial (false of the code as stated: witness and what is true).*
* **C36** Blending completes a correct diff to the whole files — `blendFile` (Blend.v); induction over hunks with the cursor invariant; SpecBlend.v says what a model between two whole files is. *proved.*
* **C37** Saving writes, per difference, the chosen side — Save.v with every outcome of the file operations; PSave.v: the text written is the concatenation over hunks of the chosen side. *proved.*
* **C38** A failed save is reported — witness (failed copy); every other failure and the error signal by case analysis. *partial (false of the code as stated: witness and what is true).*
* **C39** Blending does not change the recreated diff — PropsBlend.v: hunks added by blending are skipped by `recreateDiff`, the others keep their differences. *proved.*
* **C40** Next and previous difference walk all differences in order — ModelList.v slots; refinement (PList.v) to the view of SpecList.v (a list of files with numbers of differences and one cursor), by induction over histories. *proved.*
* **C41** Next and previous model — as C40. *proved.*
* **C42** Selection state stays consistent under any history — as C40: every operation keeps the refinement; PListOpen.v establishes it on opening. *proved.*
* **C43** Navigation actions are enabled exactly when they can move — as C40, action flags being part of the refinement. *proved.*
* **C44** Selecting something outside the list falls back safely — two witnesses; for every model outside the list, what happens; for a difference outside, the fallback. *partial (false of the code as stated: witness and what is true).*
* **C45** Failed opens leave a usable empty list — witness; for any failed open, the state it leaves, and for every operation and history after it what happens (SpecStranded.v: the view that would be shown with the models put back). *partial (false of the code as stated: witness and what is true).*
* **C46** Comparing dispatches on what the two sides are — `compare` over an oracle telling directory / diff; case analysis against the table of SpecList.v. *proved.*
* **C47** Command line represents the settings — Process.v; a getopt_long reader as specification (SpecProcess.v); induction over the options. *proved.*
* **C48** Settings survive save and load — Settings.v with KConfig as a map of group and key to the text of an entry; round trip of the list escaping. *proved.*
* **C49** Swapping source and destination is a clean involution — record function; involution. *proved.*
* **C50** Result of the diff process — `slotDiffProcessFinished` with parse, blend and show; PListOpen.v. *proved.*
* **C51** Diffs of files without a final newline are read completely in every format — two witnesses; what is read of every such normal and context document: induction over the commands, hunks and files (SpecMissing.v, PMissing.v, PropsMissing.v); unified: C16. *partial (false of the code as stated: witness and what is true).*
* **C52** Normal diffs of several files are read without complaint — witness and a theorem for every document of several files (read exactly, reported as malformed). *partial (false of the code as stated: witness and what is true).*
* **C53** Context hunks of small files are read — witness; what is read of every such document: induction over the files, with the states between a lost hunk and the next file heading (SpecSmall.v, PSmall.v, PropsSmall.v); sides of two lines and more: C24. *partial (false of the code as stated: witness and what is true).*
* **C54** CVS context diffs give names, revisions and time stamps — witness; all but the stamps for every CVS context document. *partial (false of the code as stated: witness and what is true).*
* **C55** Saving after comparing gives the chosen mixture of the two files — composition of C16, C36, C28 to C31 and C37: text of a diff and of a file in, text saved out (SpecWorkflow.v); the hypotheses can be met for every two files (PropsEveryPair.v). *proved.*
* **C56** Saving gives the chosen mixture for every diff format — witness for normal and context diffs, and exactly what is written: blending puts the lines together as `laid` says (SpecSaved.v; induction over the hunks, PSaved.v), for a context or normal diff of the file that is `cmixed` without newlines or `nwritten`; sizes show when it is the wanted text. C55 for unified; C37_save_outcome for all. *partial (false of the code as stated: witness and what is true).*
* **C57** The list stays usable while diff runs and after it fails — two witnesses (selection dangling while diff runs and after it fails). SpecWaiting.v: the emptied list that would show the view with its models put back; each slot is run beside the full list (PropsWaiting.v): exactly the operations that leave the selected model are undefined, all histories of the others keep the view. *partial (false of the code as stated: witness and what is true).*
* **C58** A failed save can be repeated — witness; state of the save action after any save. *partial (false of the code as stated: witness and what is true).*
* **C59** Every change of the selection is announced with the right values — the signals of every operation of SpecList.v are part of the refinement of C40. *proved.*
* **C60** saveDiff compares the same two files — witness; exactly which file is opened for every directory and file; SpecProcess.v resolves file operands against the working directory. *partial (false of the code as stated: witness and what is true).*
* **C61** A finished saveDiff has written the diff — SaveDiff.v; witness; case analysis. *partial (false of the code as stated: witness and what is true).*
* **C62** The destination file holds what was saved last — World.v puts the list and the files together; PKin.v (what no operation changes), PWorld.v (every save writes the mixture of the moment); induction over histories. *proved.*
* **C63** Each destination file of a directory comparison holds what was saved last — as C62 with any number of files, paths through the directory comparison. *proved.*
* **C64** Saving writes the files that were opened — two witnesses; from any state every write goes to the destination. *partial (false of the code as stated: witness and what is true).*
* **C65** Format detection — `determineFormat`; SpecFormat.v describes the shapes of lines without regular expressions, PRegexLang.v connects. *proved.*
* **C66** What an edit of the text does not reach — witness; inversion of `lines_changed` shows that it changes only the list, tracking numbers and new objects. *partial (false of the code as stated: witness and what is true).*
* **C67** Edits mixed with applying and unapplying everything — an invariant that keeps both texts (`both`), preserved by edits (C32) and by applying everything. *proved.*
* **C68** Applying one difference after edits — witness; inserted differences are not connected, so applying one changes one object. PropsFlip.v: the tracking numbers of a described text are determined by the source lines and the gains before, hence an exact condition. *partial (false of the code as stated: witness and what is true).*
* **C69** Any calls on a model with edits in between — witnesses; `pointers_good` is an invariant of every call (SpecCalls.v). *partial (false of the code as stated: witness and what is true).*
* **C70** Tracking line numbers are places in the saved file — witness; induction over the hunks relates C28 (tracking) and C37 (saved text). *partial (false of the code as stated: witness and what is true).*
* **C71** Destroying a model — Memory.v: a heap of live objects, `delete` undefined on dead ones; composition of C21, C36 and C69. *partial (false of the code as stated: witness and what is true).*
* **C72** Copies of the public values — Memory.v: copying copies pointers; witnesses and exact conditions. *partial (false of the code as stated: witness and what is true).*
* **C73** Reading files in the chosen encoding — Codec.v: decoders as machines over bytes; induction over the blocks; UTF-8 against the relations of SpecCodec.v by arithmetic. *proved.*
* **C74** Saving keeps the bytes of the file — witnesses; inverse of C73 for the UTF-8 writer, composed with C55. *partial (false of the code as stated: witness and what is true).*
* **C75** Comparing a text with a file — C62 for any mode that blends a file; when nothing is blended, the invariant of C62 with the text of the hunks alone. *partial (false of the code as stated: witness and what is true).*
* **C76** Perforce documents read back — the readers of hunks of C16, C23 and C24 under the Perforce header; the header by uniqueness of the first dash between blanks. *partial (false of the code as stated: witness and what is true).*
* **C77** Line numbers stay inside int — the loops of the parsers once more with checked arithmetic (Ints.v); equality with the unbounded ones by induction, with room for the remaining lines as invariant; tracking numbers from C28. *partial (false of the code as stated: witness and what is true).*
* **C78** One run of diff after another — the process pointer with its job, calls and ends of processes as events (Jobs.v); invariant over histories; the signals of each step by symbolic execution of the list functions. *partial (false of the code as stated: witness and what is true).*
* **C79** Working with two files again and again — induction over the rounds (Rounds.v); each round by the theorem of one session (C62), and uniqueness of the saved text carries the disk to the next. *proved.*
* **C80** A diff opened together with its file — the entries of C62 for a blended model whose differences were all applied first; two disks run side by side show that what is written does not depend on what the disk held. *partial (false of the code as stated: witness and what is true).*
* **C81** Normal diffs printed by CVS — the readers of commands of C23 under the CVS header, induction over the files with the skipped lines as prefix. *partial (false of the code as stated: witness and what is true).*
* **C82** A saved diff can be opened again — composition of C61 (what is written), C74 (UTF-8 both ways), C16 (reading) and C42 (opening); the bytes by uniqueness of UTF-8; a computed witness in Latin-1. *partial (false of the code as stated: witness and what is true).*
* **C83** Read-only means no editing — Life.v lists everything that can happen to a list; PropsLife.v shows that each happening keeps the invariant (editing actions off unless the list may write); induction over the history. *proved.*
* **C84** The models of the list are alive — the same induction: the list holds living, different models. *proved.*
* **C85** Replaced models are freed — the same case analysis gives the set of living models after each happening; induction over the number of openings. *partial (false of the code as stated: witness and what is true).*
* **C86** Files change only when saving is asked for — LifeWorld.v adds the files to Life.v; the first happening that changes the file is a save, whose target is within the destination. *proved.*
* **C87** No stale pointer after any calls — see C69. *proved.*
* **C88** No difference is deleted twice — see C71. *proved.*
* **C89** A failed save loses nothing — see C38. *proved.*
* **C90** Changes made while a save waits are not lost — Nested.v: a save is a stack of frames (local variables and the job waited for); every other call is an event between. Induction over the events from the end: each frame and each changed file goes back to a moment. *partial (false of the code as stated: witness and what is true).*
* **C91** A save goes where it was asked to go — the same induction, with where the place of each frame comes from. *partial (false of the code as stated: witness and what is true).*
* **C92** A save that waits is safe — invariant: the models of all frames live (C85 says exactly what is freed), the info is there, and what is left of a save of everything is part of its list. *partial (false of the code as stated: witness and what is true).*
* **C93** Copying a saved diff does not disturb what is started meanwhile — Copying.v: Jobs.v with the copy as an event of its own; case analysis over what is started, induction over calm histories. *partial (false of the code as stated: witness and what is true).*
* **C94** What a living model refers to is there — PGood.v, PropsSound.v: pointers_good of every living model is an invariant of each happening of Life.v and each event of Nested.v (parsed: C21; blended: induction over the hunks; edited: C69). *proved.*
* **C95** The selection is alive — PropsHeld.v: invariant of each happening (the selected model lives, the selected difference is one its model allocated), with those of C84 and C94; case analysis over every slot. *partial (false of the code as stated: witness and what is true).*
* **C96** A caller who respects the preconditions meets no undefined behaviour — PropsTotal.v: progress (each slot is total from fine states under its precondition) with the invariants of C84, C94 and C95 and two more (a listed model implies a selected one; modelIndex is at least -1). *proved.*
* **C97** What a diff gives is determined by its lines, malformed or not — SpecLines.v gives the grammars as inductive relations on lines; PLines.v, PLineHeads.v, PLineChunks.v, PLineUnified.v invert each parser function into them (induction over the fuel); PLineSame.v: the relations are functional up to what is shown. *proved.*
* **C98** Getters give what was set last — Setters.v has the calls as data; induction over the list of calls. *proved.*
* **C99** A listener knows the list and the selection — a listener is a fold over the emitted signals; each function of ModelList.v either emits nothing he hears and leaves list and selection, or announces both; then induction over Life.v. *partial (false of the code as stated: witness and what is true).*
* **C100** What the Info of a list says — case analysis over Life.v; every function of ModelList.v leaves the Info alone but compare() and parseDiffOutput(). *proved.*
* **C101** What a slot finds when it is called — Signals.v writes every function of ModelList.v and Life.v once more with the state at each Q_EMIT; that the moments can be left out is proved (`occur_plain`). Truth of each signal by composition (`traced`); the state at each moment differs from the one after the call in the log and the actions only (`late`), so that `shows` carries over. *partial (false of the code as stated: witness and what is true).*
* **C102** A slot may call the list back — Reentrant.v writes every function once more over arbitrary slots `signal -> mlist -> res mlist`. A move ends by telling (`ends`): its beginning is that of the silent run, which PList.v covers, and the rest holds for any list the slots leave; `nested` by induction on the depth; depth is immaterial by monotonicity (`le_occur`). *partial (false of the code as stated: witness and what is true).*
* **C103** Working with a diff does not change what it says — One relation on the heap (`held`: a model that is still there says the same; a model outside the list does not get into it), transitive, and preserved by every function of Reentrant.v when the slots preserve it; `nested` by induction on the depth; silent slots give Life.v. *proved.*
* **C104** Diffs with Windows line ends — From the relational reading of every unified text (C97): the readings of the two texts are compared by one induction (`files_both`), the hunks of the second built from those of the first (`counted_cr`); the format by the languages of the patterns, none of whose words ends in a line end. The other formats: witnesses. *partial (false of the code as stated: witness and what is true).*
* **C105** Diffs that git prints — As C16 (PUnifiedRead.v): induction over the files, with a header that ends in a TAB shown to match neither pattern (`bare_none`, as in C18). *partial (false of the code as stated: witness and what is true).*
* **C106** Lines between the files of a unified diff — As C16 (PUnifiedRead.v), with the verdict carried through the induction over the files: `bad_next_header` of a gap is `strange`. *proved.*

## Findings about the code

Witnesses are computed on the model and cite the lines; none was run on the C++.

* `lstripSeparators` strips one character for depth 0 and one component for every other depth (C04).
* Inline markers of a line that begins with changed text may lack the Start or have an End too many (C09).
* The Levenshtein table size wraps at 2^32: out-of-bounds writes for two lines of 65535 characters (C11).
* `DifferenceString`'s default constructor leaves the hash uninitialised; it is outside C12.
* Recreated diffs with an empty side, without time stamps or with a missing final newline do not read
  back (C18); header revisions are read from a group that does not exist and are always empty (C16).
* A file header whose second line does not match ends parsing silently (C26); five kinds of input are
  undefined behaviour (C27).
* `linesChanged` counts unapplied differences wrongly (C35) and drops edits above the table limit.
* A failed copy of a save returns true (C38); the save action is disabled after a failed save (C58).
* Selecting a model outside the list selects it (C44); failed opens leave stale actions (C45); while a
  diff process runs the selection dangles (C57).
* Normal and context diffs: no final newline loses lines (C51), several files are always malformed
  (C52), one-number ranges are lost (C53), CVS stamps are revisions (C54), saved text lacks newlines (C56).
* `saveDiff` compares other files when the directory has no trailing slash (C60), announces a diff that
  could not be written (C61). Blending modes overwrite the source, all files in one place (C64).
* Edits reported with `linesChanged` reach neither saved text nor recreated diff nor the count (C66); the
  differences they insert are connected to nothing (C68); they can remove the selected difference (C69).
* Tracking line numbers and saved text read "applied" in opposite ways (C70).
* Destroying a model leaks unlisted differences (C71); copies share what they own (C72).
* Files are read in the chosen encoding and always written in UTF-8; byte order marks and what cannot be
  read are lost (C74).
* A text compared with a file is taken for the name of a file to blend; saving then drops every line of the
  destination outside the hunks (C75).
* Perforce headers as `p4 diff` prints them give an empty new name, those of `p4 diff2` two empty names (C76).
* Hunk header numbers close to 2147483647 overflow an int while reading (C77).
* Comparing and `saveDiff` share one process pointer; a call that starts diff while it is running destroys a
  running process whose end is still connected to it. A `saveDiff` without differences and a diff program
  that cannot be started never report (C78).
* A diff opened with its file and the differences applied, as the default is: unapplying them all leaves
  nothing unsaved, so the file with the changes cannot be saved (C80).
* The models shown before are never deleted when a new diff is opened: `clear()` empties the list, and only models
  in the list are deleted (C85).
* Saving waits for its file operations in event loops: what is changed meanwhile is marked as saved and is in no file (C90),
  a destination changed meanwhile is written (C91), models deleted meanwhile are used, and saveAll goes on in a list that has
  been emptied (C92). The same of the copy at the end of saveDiff: it deletes the process that was started meanwhile (C93).
* CVS prints lines between the Index line and the commands of a normal diff; nothing of it is read (C81).
* git prints a TAB after a name with a blank: such files are lost without a complaint, sometimes with all that follow (C105).
* A Subversion diff with changes of properties is called malformed, though all its files are read (C106).
* With Windows line ends a context diff gives no files, and a normal diff loses the new lines (C104).

## Trusted base

* Coq's kernel (8.16.1) and `coqc`'s reading of the files.
* `Print Assumptions` under each theorem prints "Closed under the global context": no theorem rests on
  an axiom. `coqchk` lists seven constants of `Coq.ssr.ssrunder.Under_rel` as axioms of the loaded
  library: they are the fields of a module type of the standard library's ssreflect, loaded with
  `Lia`/`Zify`; no theorem uses them.
* The reading of the C++ into the model, cited line by line, and the contracts of Qt, KDE Frameworks,
  std::sort and PCRE that the model files state in their comments.
* Texts are well-formed UTF-16 wherever a regular expression is matched: with a lone surrogate in the line PCRE
  reports an error and QRegularExpression no match, which the model does not show. Nor does it show PCRE's limits on
  time and stack; its newline is the line feed (PCRE2's default), so a dot matches a carriage return. The logging category is off: with it on, the two `slotSelectionChanged` print the class of `sender()`,
  which is null in a direct call.
* A process is deleted in the slot called by its own `finished` signal (`slotWriteDiffOutput`); that Qt survives this is assumed.
* No axioms, no `Admitted`, no functors or module types of our own; sections with `Variable` and
  `Hypothesis` are closed, so the theorems state them.

## Wrong programs

`seeded/LOG.jsonl` has one line per seeded bug: the definition, the edit, the claim it breaks, the
theorems (or the lemmas they rest on) that no longer prove, and what was tightened after survivors.
