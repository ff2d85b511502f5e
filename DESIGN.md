# DESIGN — formal model of abenassi/xlseries in Rocq

## Plan per property (written before the proofs)

- **C01** Header ranges expand to exactly the cells of the rectangle — Coord.v codec + XlMethods.v `xl_coordinates_range` on texts; theorem by induction over columns/rows against an independent list of (row, col) pairs.
- **C02** Cell coordinates round-trip — Coord.v; bijective base 26; round trip by induction on the number.
- **C03** Composed header ranges pair up — Params.v `_unpack_header_ranges`, `_separate_composed_headers`; induction over zipped ranges.
- **C04** Context applies to the headers under or right of its range — XlMethods.v `coord_in_scope`; letters compared lexicographically as openpyxl 2.5 does. Full claim false past column Z: `_refuted`, plus the claim for columns of equal letter length and, as `C04_exact`, what holds for every vertical range (columns compared as words).
- **C05** Consecutive cell detection — XlMethods.v `consecutive_cells`. Full claim false (diagonal second cells): `_refuted`; completeness and soundness for lists whose second cell shares row or column; `C05_exact` says which lists are accepted.
- **C06** A missing critical parameter is always rejected — Params.v `params_build`; case analysis.
- **C07** Invalid parameter values never get through — Params.v `_validate_parameters`; induction over the dictionary.
- **C08** Frequency spelling is normalised — Params.v translation step.
- **C09** A value given once applies to every series — Params.v `_apply_to_all*`, `get_series_params`.
- **C10** One series per header — Params.v; false for multicolumn time headers: `_refuted`, plus partial theorem; `C10_exact`: the longest list decides.
- **C11** Explicit values win over guesses — Params.v; time_multicolumn=False is overridden: `_refuted`; alignment part proved.
- **C12** Guessed alignment is sound — Params.v `_guess_alignment`.
- **C13** Data must start after the headers — Params.v `_check_consistency`.
- **C14** A Parameters object can be rebuilt from itself — Params.v; false (context list is rejected): `_refuted`, universally.
- **C15** Rejected assignments change nothing — Params.v `__setitem__`.
- **C16** The search tries every combination exactly once — Attempts.v generator; permutation/NoDup proof against an independent cartesian product.
- **C17** Defaults are tried first — Attempts.v.
- **C18** Attempts keep what the user gave — Attempts.v.
- **C19** Without safe mode the first successful attempt is the answer — Scrape.v `_get_data_frames`, the per-attempt work an arbitrary function.
- **C20** Safe mode returns distinct results — Scrape.v; false when a result is a single frame: `_refuted`.
- **C21** The user's workbook is preserved — Scrape.v store of sheets; frame theorem: no pre-existing sheet changes.
- **C22** The user's parameters are preserved — Scrape.v store of parameter objects; false for complete Parameters objects: `_refuted`; proved for dictionaries.
- **C23** Worksheet names are resolved safely — Xlseries.v `_sanitize_ws_name`.
- **C24** The cleaned time index is strictly increasing — TimeIndex.v loop; invariant last written date < next written date.
- **C25** Without missings the time index is gapless — TimeIndex.v loop invariant.
- **C26** Valid dates are kept — TimeIndex.v; false with missings=False (annual gaps are compressed): `_refuted`, proved for missings=True.
- **C27** Cleaning touches only the time index — TimeIndex.v frame theorem.
- **C28** The end of the series is the last date — TimeIndex.v `_estimate_end`; horizontal end with trailing text raises TypeError: `_refuted`; vertical proved.
- **C29** Blank runs are tolerated up to a limit — TimeIndex.v counter invariant.
- **C30** Multi-frequency values follow the declared cycle — GetData.v frequency cycle, induction over values.
- **C31** Implicit missings are filled in place — GetData.v `_fill_implicit_missings`, induction over dates.
- **C32** Numbers come from the series' own cells — GetData.v continuous strategy.
- **C33** Non continuous series only take rows with a date — GetData.v non continuous strategy.
- **C34** Returned frames are rectangular — DataFrame construction check + Scrape.v `_get_data`.
- **C35** Column names are unique — Scrape.v `_add_name`/`_indexed_name`.
- **C36** Every series lands in the frame of its dates — Scrape.v `_get_data` fold.
- **C37** The frame index lists every period between the first and last date — PeriodRange.v pandas date_range model against 'every date of the calendar that starts a period' (SpecFrames).
- **C38** A clean sheet is scraped exactly — EndBuild (the built parameters and the first attempt, in closed form), EndAttempt (one attempt on a clean table gives one frame), EndCall (the call), for the critical parameters alone and for every layout and setting.
- **C39** Vertical and horizontal sheets are equivalent — SpecTurn/TurnProofs: a simulation of every function from clean_time_index up to the call, between a sheet in rows and the turned sheet in columns; columns to rows false (note after the dates): `_refuted`.
- **C40** Composed quarter texts are read correctly — Peg.v/ParseTime.v grammars.
- **C41** Composed month texts are read correctly — Peg.v/ParseTime.v grammars.
- **C42** Year texts are read correctly — Peg.v/ParseTime.v grammars.
- **C43** Two digit years map to 1969-2068 — ParseTime.v `_dob_year_to_four`.
- **C44** Semester series — ParseTime.v + TimeIndex.v; false without missings: `_refuted` (S is one second in arrow); with missings proved.
- **C45** Simple dates are disambiguated by their neighbours — ParseTime.v ParseSimpleTime.
- **C46** Time increments are exact — Cal.v/TimeManip.v.
- **C47** Approximate comparison is an equivalence up to tolerance — Comparing.v on binary64 (SpecFloat). Not symmetric: `_refuted`; reflexive proved.
- **C48** Frame comparison accepts equal frames and detects differences — DataFrame.v.
- **C49** Frequency inference is unambiguous — TimeManip.v `infer_freq` over exact rationals / integers.
- **C50** Copies are faithful — XlMethods.v copies.
- **C51** Exactly one reading strategy applies — Strategy lists.
- **C52** Blank headers are removed consistently — Params.v `remove_blank_headers`.
- **C53** Numbers stored as text are read as the same numbers — Base.v `float(str)`; theorem for all integers; correct rounding through Flocq.
- **C54** Series are named after their headers — GetData.v `_get_name`; Scrape.v columns.
- **C55** Which dictionaries are accepted — BuildAccept.v: every step of the build succeeds on a well formed dictionary, iff the data come after the header.
- **C56** Calls on one XlSeries object do not influence each other — Session.v: do_calls threads the store and self.params through any list of calls; induction on the history with the invariant that the workbook's sheets and the untouched objects are as at the start, and a lemma that scraping depends on the sheet and the parameters only. Reused complete objects and unpreserved workbooks: `_refuted`.
- **C57** Opening an .xls keeps its contents — Load.v: the extension, the loop that waits for cells (fuel, None = does not end) and the cell by cell copy; invariant of the filling loop (what is written stays, extents). Dates and empty sheets: false, `_refuted` and universal theorems.
- **C58** Comparing workbooks, date ranges and lists of values finds every difference where both go — compare_cells, compare_cells_ws, normalize_value, compare_period_ranges and compare_list_values are modelled (XlMethods.v, DataFrame.v, Comparing.v). The spec is the relation alike between the contents of two cells (SpecCells.v). Proved by cases on the contents and induction over sheets, rows and columns; ranges by C36's lemma that first and last date determine a range.
- **C59** A clean table whose dates are texts is scraped exactly by a whole call — The whole call of C38 with the cleaning of C40, C41, C42 and C45: the spec (SpecText.v) says which texts are read as which dates, one attempt is proved for any sheet whose index is cleaned to consecutive dates (EndAttempt.v), and the cleaning theorems give that sheet.
- **C60** No number of an answer is made up, moved between series or repeated — A soundness invariant over the whole call: what each of the collecting functions gives is drawn from the line it reads (SpecSound.v), cleaning the index changes no number of a series, and every attempt and every completion of the parameters keeps the stated ones.
- **C61** A table with periods left out is scraped with NaN at the periods left out — The values spread over the run of periods are an inductive relation of SpecGaps.v. The loop that fills the gaps is shown to compute it, and the rest is the composition of C38.
- **C62** A table with blank rows between its dates is scraped exactly — A table is a list of optional dates (SpecGaps.v). The walk over the index is followed through blank cells, the values are read by the two collecting functions, and the rest is the composition of C38.
- **C63** Typing mistakes in dates are corrected, and only those — SpecTypo.v says what a mistake is. C63_corrected follows the walk over the index with the right date as invariant and composes it with C59; C63_nothing_else is an induction over the positions of the index, each visited once.
- **C64** A time index in several columns is read as the texts of its cells put together — SpecColumns.v says what the cells of a position say together. ColumnProofs.v shows that the model reads that text and reuses the walk of C40 - C42 (IndexWalk.v), stated for any way of reading a position.
- **C65** A note right below the last date ends the index — SpecNotes.v says which notes. NoteFacts.v shows that no grammar reads them (or that reading them repeats the last date), NoteProofs.v that this ends the index, NoteIndex.v puts it after the walk of C40 - C42 and C64, EndNoted.v composes it with the call.
- **C66** Every number is dated with the date in its row — The index has as many dates as the rows with values (or the frame is rejected), contains the date of every row (C36) and is in order: a counting argument on ordered lists (DatedProofs.v). Without missings the cleaned dates are consecutive (C25), so that any row left without a date would leave fewer periods than values (DatedClean.v). Several frequencies and implicit missings: the rows, dates and values are shared out together, or placed on the grid of periods (DatedProofs2.v).
- **C67** A table of several frequencies gives one frame per frequency, exactly — Cleaning keeps the cells (invariant on the last date of every letter, CycleClean.v); first and last place of each letter give its range (MultiRange.v); the frames are filled series by series (CycleEnd.v); the rest of the call as in C38.
- **C68** Two Parameters are equal exactly when every parameter has equal values in both — Induction on nested values; a float in normal form is determined by its number (EqualProofs.v).
- **C69** Serialized frames are read from the file meant by the path — A disk as an argument; the files to read as a relation, and the list of frames by induction on it (FilesProofs.v).
- **C70** Every workbook of a directory is converted, and the current directory kept — Induction on the list of workbooks (FilesProofs.v).
- **C71** The directory of a package is the nearest one above the path — Induction on the names of the path from its end (FilesProofs.v).
- **C72** Several tables on a sheet, each with its own dates — Invariants of cleaning (cells kept, sheets only grow) and of filling the frames, by induction on the series; each series by the theorems on one (TablesProofs.v, TablesFrames.v, TablesCall.v).
- **C73** A table with its time index in several columns is scraped whole — Building the parameters (ColumnsBuild.v), cleaning each series with the index in several columns (ColumnsRead.v), and the call (ColumnsCall.v), with the walk of C64.
- **C74** The compact representation gives the object back — Model compact_repr (Compact.v); item by item (CompactProofs.v), then acceptance by C55 and the values of each parameter (CompactBack.v).
- **C75** Removing what is not critical keeps exactly the critical — Model remove_non_critical (Compact.v); the parameters chosen, removed and restored by induction (CompactRemove.v).
- **C76** The row or column cells share, and the cells between two — Read the names with C02, then the row and column tests by cases (PropsLine.v).
- **C77** Checking a result against the expected frames of a case — Model case_loaders.py (Cases.v); induction on the frames and on the digits of the number (PropsCases.v).
- **C78** A table of years and quarters with a written time index gives one frame for the years and one for the quarters — Grammar of both parsers on these texts (YearTexts.v); invariant of the cleaning on the last dates of every letter, where the typo rule mends the years after the first (YearClean.v); then the frames as for C67 (YearCall.v, PropsYears.v).
- **C79** The strategies that are tried are those of the module, in alphabetical order, and the first one that accepts is used — Model strategies_helpers.py (Helpers.v); insertion sort is a sorted permutation, sorted lists with the same elements are equal; induction on the pool (PropsHelpers.v).
- **C80** The significant figures of a series are the decimals of the number that has the most — Model float_handlers.py with binary64 operations (Figures.v); induction on the list and on the text (PropsFigures.v).
- **C81** Cells that are not part of the tables make no difference — two-run simulation: a relation between sheets that agree on a set of cells is kept by every touch and write, and every read of clean, get data and period ranges is shown to be in the set; then through the attempts, whose parameters stay inside what the object leaves open
- **C82** A table further down the sheet gives the same answer — two-run simulation: a relation between results that carries the shift of positions through clean, get data and period ranges, then through the attempts, whose options are the same on both sides
- **C83** Leaving series out, or asking for them in another order, changes nothing in the others — the cleaning reads only what the series share, so every selection leaves the same sheet; the frames are then a function of what each header alone adds, and selections commute with it
- **C84** The order and the places of the columns do not matter — the two runs go hand in hand: every read and write is at the same position of lines that correspond, so the sheets stay rearranged and the records of the series differ only in their headers
- **C85** Calling again on the workbook that a call cleaned gives the same — SpecAgain.v says which indexes. AgainProofs.v shows that a value that was written is read and corrected as itself whatever the parser, so that the loop over a cleaned index takes the same steps; AgainProofs2.v that nothing else of the call reads what changed
- **C86** The names, the context and the composed headers change only the names of the columns — the two runs go hand in hand: the records of the series differ only in the three fields that _get_name reads, the sheets stay equal, and so do the frames but for their columns (NamingProofs.v)
- **C87** Another number in a cell of the values changes that value, and nothing else — the two runs go hand in hand: cleaning and the ranges do not see the cell and the values of a series differ in one place at most, which grouping by frequency and filling of holes keep (ValueProofs.v); the frames are related by the number of columns that differ
- **C88** An earlier end of the data gives the beginning of the same columns — cleaning up to m' leaves the cells up to m as cleaning up to m does (loop_until, index_until in PrefixProofs.v), so the values collected up to m are the first ones collected up to m' and filling the gaps keeps that; the names are read before m; both ranges are cut from the sequence of periods of the first date (PrefixProofs2.v)
- **C89** Leaving parameters out is the same as writing down values for them that work — the attempts of the search are the objects with a combination written down (each_once, C17), each works on a copy of the sheet (C19, alone_copy), the first one has the defaults (C18); so the search gives what the first attempt that works gives alone (first_good in LeaveProofs.v)
- **C90** The templates of the parameters describe the table they say — the template is a critical request for these cells, so C38_clean_sheet applies; the object of the complete template is the one of the critical template with the defaults written down, so C89_defaults applies
- **C91** Values and marks that are written in another way and read the same give the same frames — a list of marks is not looked into by the cleaning (clean_remark), which so does the same to both sheets and writes only dates and empty cells; the values collected are the same (taken2, collect2 in WriteProofs2.v); the ranges and names are read from the labels
- **C92** Safe mode gives the plain answer, or a list that starts with it — the first result is never dropped as repeated and the others come from the attempts (unique_starts, successes_first, call_safe in SafeProofs.v), which are the objects with valid values written down (C89)
- **C93** The values of the parameters left out are tried by the likeliness of the defaults — what is missing is given by seven flags (missings_selected); the loops are computed for each of the 128 cases (combos_order in OrderProofs.v) and the attempts write them down; loops_of is deterministic (loops_of_det)

## Modelling approach

* Shallow, computable Gallina: one definition per Python function, branch by branch, exceptions as values (`res` = `Ok | Err exn`), comments cite `/repo` lines.  Python 3.6 semantics with the library versions of requirements.txt (openpyxl 2.5.0, pandas 0.20-0.22, arrow 0.5.4, Parsley 1.3).
* Texts are `list ascii`; `unidecode` is therefore the identity on modelled cell texts (for sheet names it is an arbitrary function argument).
* Cells and parameter values are `pyval` (None, bool, int, binary64 float, str, datetime, list, dict, classes).
* Floats are the standard library's `SpecFloat` (IEEE binary64 with NaN and infinities); the model contains no primitive floats and no reals.
* datetimes are UTC, second resolution, proleptic Gregorian calendar, years 1..9999.
* A worksheet is a total map from (row, column) to values plus its extent and title; reading a cell through `ws[...]` may extend the extent as openpyxl does (`touch`). The cells of time headers, headers and composed headers, when they are outside the sheet, are not added to the extent; that would only add blank positions after the dates.
* Mutable objects (worksheets, Parameters objects) live in a store (Scrape.v `store`) and are named by position; a copy is a new object.
* Parsley grammars become parser combinators (Peg.v) with ordered choice, greedy repetition without giving back, whole input consumed, and exceptions of actions leaving the parser.
* Behaviour of libraries that is not modelled is an explicit function argument quantified over in every theorem: the `env` record of ParseTime.v (`str(float)`, `str(datetime)`, month names of arrow's locales, the month `arrow.get(text, format)` reads from three or more characters, `arrow.get` and `pandas.Timestamp` of values that are not dates), `unidecode`, and the reading of json files.
* `Spec*.v` files state what is expected without using the functions of the model under test; `*Facts.v`/`*Proofs.v` hold the proofs; `Props*.v` hold the theorems cited in MANIFEST.json, each with `Print Assumptions` and an Example that meets its hypotheses.
* A claim that is false of the code is kept in properties.jsonl; it has a `_refuted` theorem with a witness, or a universal negative theorem, besides the part that holds.

## What is modelled

| /repo/xlseries | model | parts |
|---|---|---|
| utils/xl_methods.py | Coord.v, XlMethods.v | coordinates, common_row_or_column, coord_in_scope, consecutive_cells, make_wb_copy, make_ws_copy, xl_coordinates_range, compare_cells, normalize_value |
| strategies/discover/parameters.py | Params.v, Compact.v | tables of valid and default values, the whole of `__init__`/`_build`, `__setitem__`, `__eq__`, get_series_params, is_complete, get_missings, remove, remove_series, remove_blank_headers, templates, compact_repr, get_non_critical_params, remove_non_critical |
| strategies/strategies.py | Attempts.v, Scrape.v | attempts and their order, safe mode, `_clean_data`, `_get_data`, names and frames, stores of objects |
| strategies/clean/time_index.py | TimeIndex.v | iterator, `_clean_time_index`, `_estimate_end`, progression and typo rules, single and multi frequency, single and several columns, offset, the choice among the strategies |
| strategies/clean/parse_time.py | Peg.v, ParseTime.v | all the strategies and grammars, simple times, date members |
| strategies/get/data.py | GetData.v | names, values, implicit missings, continuous and non continuous, single and multi frequency |
| strategies/get/period_range.py | PeriodRange.v | both strategies and pandas.date_range / period_range for the frequencies used |
| xlseries.py, utils/xl_methods.py: opening | Load.v | `_load_wb`, open_xls_as_xlsx, the copying loops |
| xlseries.py | Xlseries.v, Session.v | get_data_frames with copies and parameters, `_sanitize_ws_name`, any series of calls with self.params |
| utils/time_manipulation.py | Cal.v | increment_time, infer_freq (Comparing.v) |
| utils/comparing.py | Comparing.v | approx_equal, compare_list_values |
| utils/data_frame.py | DataFrame.v, Serial.v, Files.v | construction check of pandas.DataFrame, compare_data_frames, the frequency a serialized frame is rebuilt with, which files are read and written |
| utils/path_finders.py | Files.v | get_package_dir, the paths of the cases |
| utils/strategies_helpers.py | Helpers.v | which classes of a module are its strategies, and their order |
| utils/float_handlers.py | Figures.v | all of it; str() of a float is an argument |
| utils/case_loaders.py | Cases.v | file names, parameters and critical parameters of a case, the check of a result |

Simplifications are stated in the comment of the definition concerned. The main ones: sharing of lists between objects is not modelled (values are copied); `$A$1` coordinates are not modelled; time zones and microseconds are not modelled; MultiTable strategies of time_index.py can never be chosen before their SingleTable counterparts accept (C51) and are not modelled beyond acceptance.

## Not modelled

* What openpyxl's load_workbook and xlrd find in a file (arguments of the model), printing, `__repr__` and messages of exceptions, utils/path_finders.py abs_path, evaluation/, profiling and tests.
* The contents of serialized frames: what pandas reads from and writes to files (utils/data_frame.py) is an argument of the model, but for the frequency of the frame.

## Trusted base

* Coq 8.16.1's kernel (and its virtual machine, used for the concrete cases and for the 128 sets of missing parameters of C93), and the correspondence of the definitions with /repo, which is by reading: the code was not run.
* `Print Assumptions` of every theorem in Props*.v says "Closed under the global context", except
  * C47_accepts, C47_only_close, C47_symmetric_partial, C47_negative_refuted, C47_zero_refuted, C48_detects, C49_unambiguous, C49_infers, C49_regular_days, C49_regular_months and C49_semesters_never of PropsCompare.v, C53_int_rounded and C53_decimal_rounded of PropsRound.v, and C58_detects, C58_equal, C58_itself and C58_values of PropsCells.v. These use the axioms of the standard library's Reals, through Flocq's theory of rounding: `ClassicalDedekindReals.sig_not_dec`, `ClassicalDedekindReals.sig_forall_dec`, `FunctionalExtensionality.functional_extensionality_dep` and `Classical_Prop.classic`.
* No axiom, parameter, admitted proof, plugin or disabled check is added.

## Findings

Behaviours of the code that the proofs brought out; those with a theorem name it.

* With missings=False, the first default, gaps in the dates are silently closed (C26_gaps_refuted), and semesters are rewritten one second apart (C25_semester_refuted, C44_consecutive_refuted, C46_semester_refuted).
* Two tables in rows that are answered one by one raise TypeError together unless data_ends is given (C72_rows_refuted).
* The dictionary a Parameters object prints as does not give it back when there is a context (C74_context_refuted), when the composed headers are the same for all the series (C74_composed_refuted), when a header is given twice (C74_twice_refuted) or for one series with its index in two columns (C74_one_split_refuted). remove_non_critical takes contexts to be the same for all the series whatever they are (C75_context_lost).
* A single series with its time index in two columns comes out twice, the second time with ".2" after its name (C73_one_header_refuted).
* In Python 3 (no string.lowercase) one of several serialized frames cannot be read by its index (C69_letters), and converting a directory with a workbook of several sheets raises and leaves the current directory changed (C70_several). A directory of frames without an extension is taken for a workbook (C69_directory); a csv or json that does not exist gives an empty list. get_package_dir of a path outside of the package never ends (C71_outside).
* A repeated last date stays in the index (C24_repeated_end_refuted). An index without dates is accepted with time_alignment -1 (C28_offset_refuted). A note after a horizontal index raises TypeError while below a vertical one it is left out (C28_horizontal_note_refuted, C39_columns_to_rows_refuted). With a parameter left to be searched for, dates with a blank between give the first run of dates in columns and all of them in rows (C39_incomplete_refuted). A table of several frequencies that stops inside a cycle comes from rows and raises in columns (C39_cycles_refuted).
* `Parameters(Parameters(d))` always fails (C14_rebuild_fails). `Parameters({})` is accepted (C06_empty_dict_refuted). A stated time_multicolumn=False is overridden (C11_false_multicolumn_refuted). One header and a two column time index give two series (C10_time_columns_refuted). An alignment given as a list switches off the check of data_starts (C13_alignment_list_refuted).
* The scope of a vertical context compares column letters as texts, so it is wrong past column Z (C04_vertical_context_refuted). Diagonal cells count as consecutive (C05_diagonal_refuted).
* A complete Parameters object passed by the user is written to (C22_complete_object_refuted), so using it again on a longer sheet silently loses the last dates (C56_object_again_refuted). Without preserving the workbook the same call works once (C56_not_preserving_refuted). Safe mode returns repeated single frames (C20_single_frames_refuted).
* Blank cells shift the filling of implicit missings (C31_blank_rows_refuted).
* Quarter texts after a note, mixed styles, month texts followed by letters, month-first dates and notes are misread (C40_*_refuted, C41_trailing_text_refuted, C45_*_refuted).
* approx_equal is not symmetric, accepts no other number for a negative first argument, and raises for 0 against anything else (C47_*_refuted). Short regular series get no frequency and semesters never do (C49_short_refuted, C49_semesters_never).
* Opening an .xls with an empty sheet never ends (C57_empty_sheet), and dates in an .xls become numbers, so a dated table in an .xls cannot be read (C57_no_dates, C57_dates_refuted).
* compare_cells ignores rows, columns and sheets only one workbook has, and tells "5" from " 5" although it ignores the blanks around other texts (C58_more_refuted, C58_blanks_refuted).
* A source note right below an index may become a date of it ("Fuente: INDEC" below quarters or days, a year in a note below years or months), or make the last written date be lost (C65_*_refuted).
* Numbers may get the date of another row: those beside a Saturday in daily data, beside a date in the middle of a month, or before a number left out (C66_*_refuted).
* With years and quarters in words, the number of the year beside its total, or in the text of every quarter, makes the call fail; with missings the years after the first are dated in October in the cleaned index (C78_*_refuted).
* significant_figures gives 2 for 4.35 and 15 for -4.35, and truncate(0.29, 2) is 0.28 (C80_*_refuted); the package does not use them.
* The check of a result against the expected frames of a case passes with frames missing, even all of them (C77_fewer_refuted).
* When the first series has a single value for a parameter and another one a list (composed headers of some series only), remove_non_critical raises TypeError, and so does the loader of the critical parameters of a case (C75_uneven, C77_uneven).
* When data_ends is left out the size of the sheet counts: a note away from a table in rows, beyond its last column, makes the call fail (C81_size_refuted).
* A time index is cleaned with the parameters of the first series that has its header only: a series with other parameters for it fails alone or first, and not second (C83_own_parameters_refuted).
* With preserve_wb_obj=False the second call on the same workbook may raise or give another answer: dates that were composed are now dates, a sheet in rows got one column wider, and a note below the dates may now be read as one (C85_*_refuted).
* The combinations are not tried in the order of the likeliness of the defaults: the most likely one of those left out is changed first (C93_likeliness_refuted).
* A blank parent header makes the name raise (C54_parent_raises).
* The rule for dates typed too far ahead (`_forth_time_value_typo`) is never used by a call: it compares missing_value with the text "Implicit", and Parameters always makes a list of it.
* Without a theorem: frequency "W" lists Sundays only, so weekly data dated on other days cannot be returned; a two-column horizontal sheet with two time headers and no data_ends fails, because cleaning the first index widens the sheet; get_package_dir recurses without end when the package is not found; string.lowercase does not exist in Python 3.
