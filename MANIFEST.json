{
 "claims": [
  {
   "property": "C01",
   "status": "proved",
   "theorems": [
    "C01_header_text_expands",
    "C01_header_list_expands",
    "C01_range_same_as_listing"
   ],
   "note": "Expansion of texts and of lists, and equality of the built parameters for a range and for the listing of its cells."
  },
  {
   "property": "C02",
   "status": "proved",
   "theorems": [
    "C02_round_trip",
    "C02_column_letters",
    "C02_distinct",
    "C02_reading"
   ],
   "note": "Round trip, column letters, injectivity, and exact characterisation of the accepted coordinate texts."
  },
  {
   "property": "C03",
   "status": "proved",
   "theorems": [
    "C03_composed_range",
    "C03_built"
   ],
   "note": "Composed ranges with any number of components, with and without parentheses."
  },
  {
   "property": "C04",
   "status": "partial",
   "theorems": [
    "C04_horizontal_context",
    "C04_context_partial",
    "C04_vertical_context_refuted",
    "C04_exact"
   ],
   "note": "Full for horizontal ranges; vertical ranges need columns with equally many letters, the general claim is refuted (columns are compared as texts). C04_exact gives what happens for every vertical range: the names of the columns are compared as words."
  },
  {
   "property": "C05",
   "status": "partial",
   "theorems": [
    "C05_runs_recognised",
    "C05_consecutive_partial",
    "C05_diagonal_refuted",
    "C05_exact"
   ],
   "note": "All runs are recognised; the converse holds when the second cell shares row or column with the first, diagonals refute the full claim. C05_exact gives the accepted lists: a run with any cells off the row and the column of its first cell inserted after it."
  },
  {
   "property": "C06",
   "status": "partial",
   "theorems": [
    "C06_missing_critical_partial",
    "C06_missing_critical_json",
    "C06_empty_dict_refuted"
   ],
   "note": "Proved for every non-empty dictionary and for every json file; an empty dictionary is accepted (refuted)."
  },
  {
   "property": "C07",
   "status": "proved",
   "theorems": [
    "C07_values_accepted",
    "C07_names_known"
   ],
   "note": "Every accepted value belongs to the set of its parameter and every name is known. Values that are Python classes are excluded (hypothesis plain)."
  },
  {
   "property": "C08",
   "status": "proved",
   "theorems": [
    "C08_same_reading",
    "C08_same_readings",
    "C08_value",
    "C08_values"
   ],
   "note": "Same reading gives the same build result (success or exception), and every series sees the reading."
  },
  {
   "property": "C09",
   "status": "proved",
   "theorems": [
    "C09_given_once",
    "C09_given_per_series",
    "C09_markers",
    "C09_time_header",
    "C09_series_params"
   ],
   "note": "Plain parameters, missing value markers and the time header; get_series_params returns those values."
  },
  {
   "property": "C10",
   "status": "partial",
   "theorems": [
    "C10_series_per_header_partial",
    "C10_time_columns_refuted",
    "C10_exact"
   ],
   "note": "Holds when no other list is longer than the headers; a two-column time index with one header gives two series (refuted). C10_exact gives the number for every dictionary: the length of the longest list among headers, time header and listed parameters."
  },
  {
   "property": "C11",
   "status": "partial",
   "theorems": [
    "C11_alignment_stated",
    "C11_alignments_stated",
    "C11_multicolumn_stated_partial",
    "C11_false_multicolumn_refuted"
   ],
   "note": "Stated alignment always wins and so does time_multicolumn=True; time_multicolumn=False is overridden by the guess (refuted)."
  },
  {
   "property": "C12",
   "status": "proved",
   "theorems": [
    "C12_guess_sound",
    "C12_guess_made"
   ],
   "note": "Soundness for every successful build, and completeness for unbroken runs and for four or more aligned headers."
  },
  {
   "property": "C13",
   "status": "partial",
   "theorems": [
    "C13_data_after_headers_partial",
    "C13_alignment_list_refuted",
    "C13_alignment_none_refuted"
   ],
   "note": "Holds when the alignment is stated as a text or the key is absent; not checked when alignment is a list or None (refuted)."
  },
  {
   "property": "C14",
   "status": "partial",
   "theorems": [
    "C14_rebuild_fails",
    "C14_rebuild_refuted"
   ],
   "note": "The claim is false: rebuilding fails for every object with at least one series (universal theorem) and a witness is given."
  },
  {
   "property": "C15",
   "status": "partial",
   "theorems": [
    "C15_rejected_unchanged",
    "C15_accepted_stored",
    "C15_composed_length_refuted"
   ],
   "note": "Rejected assignments leave everything unchanged for every parameter; stored lists are valid for the scalar parameters, while composed headers are stored with any length (refuted)."
  },
  {
   "property": "C16",
   "status": "proved",
   "theorems": [
    "C16_generator",
    "C16_each_combination_once",
    "C16_search_succeeds"
   ],
   "note": "The combination generator and the whole search: every combination exactly once, and the search succeeds for every incomplete object that says enough."
  },
  {
   "property": "C17",
   "status": "proved",
   "theorems": [
    "C17_defaults_first"
   ],
   "note": "The first attempt takes the default of every parameter left out."
  },
  {
   "property": "C18",
   "status": "proved",
   "theorems": [
    "C18_attempts_keep"
   ],
   "note": "Every attempt keeps what was given, and is complete."
  },
  {
   "property": "C19",
   "status": "proved",
   "theorems": [
    "C19_first_successful",
    "C19_all_raise"
   ],
   "note": "Result and parameters of the first attempt that does not raise, run alone on a copy of the sheet; all raising raises."
  },
  {
   "property": "C20",
   "status": "partial",
   "theorems": [
    "C20_single_frames_refuted",
    "C20_single_frames_all_kept",
    "C20_distinct_partial"
   ],
   "note": "Refuted for results that are a single frame (never recognised as repeated); proved when every result has several frames."
  },
  {
   "property": "C21",
   "status": "proved",
   "theorems": [
    "C21_preserved",
    "C21_several_attempts"
   ],
   "note": "Every sheet object that existed is equal afterwards, for every outcome."
  },
  {
   "property": "C22",
   "status": "partial",
   "theorems": [
    "C22_complete_object_refuted",
    "C22_only_ends_partial",
    "C22_several_attempts_partial",
    "C22_dictionary_partial"
   ],
   "note": "Refuted for a complete Parameters object: data_ends is written to it. Proved otherwise, and that nothing else is written."
  },
  {
   "property": "C23",
   "status": "proved",
   "theorems": [
    "C23_resolved",
    "C23_unresolved_raises",
    "C23_sheet_scraped",
    "C23_unambiguous"
   ],
   "note": "Resolution of the name, exception when unresolved, and the sheet that is scraped."
  },
  {
   "property": "C24",
   "status": "partial",
   "theorems": [
    "C24_increasing_partial",
    "C24_with_data_ends",
    "C24_repeated_end_refuted"
   ],
   "note": "Strictly increasing for every sheet when data_ends is given; without it one exception is proved to be the only one and shown to occur (a repeated last date stays in the index)."
  },
  {
   "property": "C25",
   "status": "partial",
   "theorems": [
    "C25_gapless_partial",
    "C25_with_data_ends",
    "C25_repeated_end_refuted",
    "C25_semester_refuted"
   ],
   "note": "Consecutive dates are one period apart for D, W, M, Q, A; the same repeated last date is the only exception, and the semester frequency, whose step is a second, is refuted."
  },
  {
   "property": "C26",
   "status": "partial",
   "theorems": [
    "C26_kept_partial",
    "C26_accepted_partial",
    "C26_gaps_refuted"
   ],
   "note": "Proved for every index of dates with gaps allowed or without gaps; refuted for missings False, where gaps are closed silently."
  },
  {
   "property": "C27",
   "status": "proved",
   "theorems": [
    "C27_only_the_index",
    "C27_dates_or_nothing"
   ],
   "note": "Any sheet, parameters and result: only the cells of the index between data_starts and the last position change, and only to dates or empty."
  },
  {
   "property": "C28",
   "status": "partial",
   "theorems": [
    "C28_last_date_partial",
    "C28_horizontal_note_refuted",
    "C28_offset_refuted"
   ],
   "note": "The end is the last date read, for time alignment 0 or 1; refuted for alignment -1 (an index without dates is accepted) and for horizontal indexes followed by a note (it raises)."
  },
  {
   "property": "C29",
   "status": "proved",
   "theorems": [
    "C29_where_it_stops",
    "C29_tolerated"
   ],
   "note": "Where every successful reading stops, for indexes in one line, and acceptance of every index with runs of up to 40 blanks."
  },
  {
   "property": "C30",
   "status": "proved",
   "theorems": [
    "C30_cycle",
    "C30_accepted"
   ],
   "note": "Every frequency text of two or more letters; both the returned groups and their order. Letters are distinguished as the code does."
  },
  {
   "property": "C31",
   "status": "partial",
   "theorems": [
    "C31_filled_partial",
    "C31_in_place_partial",
    "C31_blank_rows_refuted"
   ],
   "note": "Exact placement for continuous series without skipped rows, for every grid of dates; skipped blank cells shift the later observations (refuted)."
  },
  {
   "property": "C32",
   "status": "proved",
   "theorems": [
    "C32_own_values",
    "C32_values_returned",
    "C32_not_a_number_raises"
   ],
   "note": "Exact values for every sheet, acceptance, and an exception for anything that is not a blank, a marker or a number. Frequencies of one letter without implicit missings (C30 and C31 cover the others)."
  },
  {
   "property": "C33",
   "status": "proved",
   "theorems": [
    "C33_dated_values",
    "C33_never_raises"
   ],
   "note": "Exact values for every sheet, and no cell content makes it raise."
  },
  {
   "property": "C34",
   "status": "proved",
   "theorems": [
    "C34_rectangular",
    "C34_fits",
    "C34_mismatch_raises"
   ],
   "note": "Rectangularity for every answer of the API; a series whose number of values differs from the dates between its first and last one (or the working days, for daily data) raises."
  },
  {
   "property": "C35",
   "status": "proved",
   "theorems": [
    "C35_unique",
    "C35_columns",
    "C35_suffixes",
    "C35_not_renamed"
   ],
   "note": "Distinct columns for every answer of the API; each column is a series in header order under the first free suffix; the exact .2, .3 numbering when no header already has a numbered name."
  },
  {
   "property": "C36",
   "status": "proved",
   "theorems": [
    "C36_frames",
    "C36_one_column",
    "C36_letters"
   ],
   "note": "Every piece of every header is in exactly one frame, with the others of the same frequency, first and last date, in header order; one piece per frequency letter."
  },
  {
   "property": "C37",
   "status": "proved",
   "theorems": [
    "C37_index",
    "C37_several",
    "C37_last_cycle",
    "C37_representable",
    "C37_range",
    "C37_working_days",
    "C37_determined"
   ],
   "note": "Exact index for series of every frequency, single or several, wherever they stop; first and last dates pandas cannot hold are refused. A series of several frequencies in columns whose last cycle lacks a frequency raises (C37_last_cycle). Semesters run every six months from the first month start."
  },
  {
   "property": "C38",
   "status": "proved",
   "theorems": [
    "C38_clean_sheet",
    "C38_clean_table"
   ],
   "note": "C38_clean_sheet: only the critical parameters, series in columns, any number of rows and series, frequencies D, W, M, Q and A (the semester increment of the code is one second, so S is excluded), dates in years 1678-2261 that start their periods and at least two of them. C38_clean_table: also series in rows, with a stated layout, names, data_ends, continuity, blank_rows and missing value markers."
  },
  {
   "property": "C39",
   "status": "partial",
   "theorems": [
    "C39_rows_to_columns",
    "C39_same_answer",
    "C39_clean_table",
    "C39_columns_to_rows_refuted",
    "C39_incomplete_refuted",
    "C39_cycles_refuted"
   ],
   "note": "Rows to columns is proved for every sheet, single-letter frequencies and complete parameters; when both are read the answers are equal; clean tables give the same answer both ways, also with parameters left out. The rest is false: a note after the dates is an error in a row (C39_columns_to_rows_refuted), with a parameter left to be searched for both may be read with different answers (C39_incomplete_refuted), and a table of several frequencies that stops inside a cycle comes from rows only (C39_cycles_refuted)."
  },
  {
   "property": "C40",
   "status": "partial",
   "theorems": [
    "C40_quarter_partial",
    "C40_index_partial",
    "C40_leading_note_refuted",
    "C40_mixed_styles_refuted"
   ],
   "note": "All four styles with notes, blanks and missing years, as single texts and as a whole index in one style. A leading note before the short form and a change of style inside an index are misread (refuted)."
  },
  {
   "property": "C41",
   "status": "partial",
   "theorems": [
    "C41_any_case",
    "C41_month_partial",
    "C41_index_partial",
    "C41_trailing_text_refuted"
   ],
   "note": "All forms, as single texts and as a whole index, with any text after a name or after year and month; after a lone month number only symbols, letters there are taken for a year text (refuted)."
  },
  {
   "property": "C42",
   "status": "proved",
   "theorems": [
    "C42_year",
    "C42_index"
   ],
   "note": "Texts, whole numbers and numbers with decimals, as single cells and as a whole index."
  },
  {
   "property": "C43",
   "status": "proved",
   "theorems": [
    "C43_two_digits"
   ],
   "note": "In every form that takes a two digit year: quarters, months, semesters and simple dates."
  },
  {
   "property": "C44",
   "status": "partial",
   "theorems": [
    "C44_semester",
    "C44_index_partial",
    "C44_consecutive_refuted"
   ],
   "note": "The texts are read correctly and so is an index of them with missings=True; with missings=False consecutive semesters are rewritten one second apart (refuted)."
  },
  {
   "property": "C45",
   "status": "proved",
   "theorems": [
    "C45_simple",
    "C45_read",
    "C45_index",
    "C45_month_first_refuted",
    "C45_note_refuted",
    "C45_after_date_refuted"
   ],
   "note": "For the periodic frequencies: soundness of every accepted reading, completeness for day-month-year and year-month-day dates, whole indexes. The refuted theorems show what the statement does not promise: month-first dates, a note below the index, a date cell first."
  },
  {
   "property": "C46",
   "status": "proved",
   "theorems": [
    "C46_days",
    "C46_months",
    "C46_real",
    "C46_increasing",
    "C46_composition",
    "C46_month_end_refuted",
    "C46_semester_refuted"
   ],
   "note": "Exactly characterised for D, W, M, Q, A against an independent calendar; composition from day 28 or before (from the first of the month as stated), with refutations for month ends and for S, which moves one second."
  },
  {
   "property": "C47",
   "status": "partial",
   "theorems": [
    "C47_reflexive",
    "C47_accepts",
    "C47_only_close",
    "C47_symmetric_partial",
    "C47_symmetry_refuted",
    "C47_negative_refuted",
    "C47_zero_refuted"
   ],
   "note": "Reflexive, exactly characterised up to rounding; symmetric only up to doubling the tolerance. Symmetry with the same tolerance is refuted, as is the tolerance for negative numbers and for zero."
  },
  {
   "property": "C48",
   "status": "proved",
   "theorems": [
    "C48_itself",
    "C48_detects",
    "C48_equal",
    "C48_infinity_refuted"
   ],
   "note": "For frames with distinct column names. Values of two accepted frames agree unless the first is infinite (refuted by a witness)."
  },
  {
   "property": "C49",
   "status": "partial",
   "theorems": [
    "C49_unambiguous",
    "C49_infers",
    "C49_regular_days",
    "C49_regular_months",
    "C49_average",
    "C49_short_refuted",
    "C49_semesters_never"
   ],
   "note": "Unambiguous, and every regular series of twelve dates or more gets its frequency; shorter ones may not (refuted) and six-monthly ones never do."
  },
  {
   "property": "C50",
   "status": "proved",
   "theorems": [
    "C50_copy_loop",
    "C50_sheet_copy",
    "C50_workbook_copy",
    "C50_objects",
    "C50_bounded_kept"
   ],
   "note": "For sheets without cells beyond their extent, an invariant of every operation on sheets."
  },
  {
   "property": "C51",
   "status": "proved",
   "theorems": [
    "C51_exactly_one",
    "C51_none_when_empty"
   ],
   "note": "For every non-empty frequency; none applies to the empty one."
  },
  {
   "property": "C52",
   "status": "proved",
   "theorems": [
    "C52_blank_headers_removed"
   ],
   "note": "For objects whose lists have one value per series."
  },
  {
   "property": "C53",
   "status": "proved",
   "theorems": [
    "C53_same_number",
    "C53_printed",
    "C53_same_data",
    "C53_int_rounded",
    "C53_decimal_rounded"
   ],
   "note": "For every int and every decimal text of it, equality of all that is read from the sheet; ints and decimal texts are read as the closest float. Ints too large for a float raise while their text gives infinity, and -0 is excluded."
  },
  {
   "property": "C54",
   "status": "proved",
   "theorems": [
    "C54_name",
    "C54_one",
    "C54_parent_raises",
    "C54_columns"
   ],
   "note": "Name of every column of a series, uniqueness of it, and the names of the columns of the returned frames."
  },
  {
   "property": "C55",
   "status": "proved",
   "theorems": [
    "C55_accepted"
   ],
   "note": "For dictionaries whose values are each acceptable (C52), building succeeds exactly when the data are declared after the first header (layout stated, or seen from the headers)."
  },
  {
   "property": "C56",
   "status": "proved",
   "theorems": [
    "C56_history",
    "C56_object",
    "C56_any_order",
    "C56_saved",
    "C56_saved_values",
    "C56_none_saved",
    "C56_object_again_refuted",
    "C56_not_preserving_refuted"
   ],
   "note": "Proved for every history. Beyond the statement: false for a complete Parameters object used again (C56_object_again_refuted: a longer sheet loses its last month silently) and when the workbook is not preserved (C56_not_preserving_refuted)."
  },
  {
   "property": "C57",
   "status": "partial",
   "theorems": [
    "C57_extension",
    "C57_kept_partial",
    "C57_empty_sheet",
    "C57_no_dates",
    "C57_dates_refuted"
   ],
   "note": "Proved when every sheet has cells, with blanks shown as empty texts and dates as numbers. False for dates: no cell of a converted workbook is ever a date (C57_no_dates), so a dated table cannot be read from an .xls (C57_dates_refuted). False for a file with an empty sheet: the call never ends (C57_empty_sheet). xlrd and load_workbook themselves are arguments."
  },
  {
   "property": "C58",
   "status": "proved",
   "theorems": [
    "C58_detects",
    "C58_equal",
    "C58_itself",
    "C58_more_refuted",
    "C58_blanks_refuted",
    "C58_ranges",
    "C58_values",
    "C58_values_same",
    "C58_values_refuted"
   ],
   "note": "Rows, columns and sheets only one of the workbooks has are ignored (C58_more_refuted), blanks around a text that reads as a number matter (C58_blanks_refuted), a list may be longer than the other (C58_values_refuted). Cells with ints beyond 2^52 or infinite floats are left out of C58_detects."
  },
  {
   "property": "C59",
   "status": "proved",
   "theorems": [
    "C59_text_table"
   ],
   "note": "Semesters and indexes followed by blank rows are not covered here."
  },
  {
   "property": "C60",
   "status": "proved",
   "theorems": [
    "C60_nothing_made_up",
    "C60_declared"
   ],
   "note": "C60_nothing_made_up is for any parameters, C60_declared for a dictionary with the cells of the headers and one data_starts. Which date each number goes to is in C36 to C38 and C59."
  },
  {
   "property": "C61",
   "status": "proved",
   "theorems": [
    "C61_left_out"
   ],
   "note": "The dates are dates of the workbook and not texts, and the parameters are those of C38."
  },
  {
   "property": "C62",
   "status": "proved",
   "theorems": [
    "C62_blank_rows"
   ],
   "note": "The dates are dates of the workbook and not texts, and the parameters are those of C38."
  },
  {
   "property": "C63",
   "status": "proved",
   "theorems": [
    "C63_corrected",
    "C63_nothing_else"
   ],
   "note": "The dates are dates of the workbook and not texts, and the parameters are those of C38. C63_corrected is about the whole call, C63_nothing_else about the cleaning of the index."
  },
  {
   "property": "C64",
   "status": "proved",
   "theorems": [
    "C64_columns"
   ],
   "note": "C64_columns is about the cleaning of the index, like C40 - C42; the texts are those of C40 - C42 once put together."
  },
  {
   "property": "C65",
   "status": "partial",
   "theorems": [
    "C65_composed_partial",
    "C65_columns_partial",
    "C65_dates_partial",
    "C65_call_partial",
    "C65_quarter_note_refuted",
    "C65_year_note_refuted",
    "C65_day_note_refuted",
    "C65_month_note_refuted",
    "C65_last_date_refuted"
   ],
   "note": "The full claim is refuted: 'Fuente: INDEC' below quarters becomes the next quarter (C65_quarter_note_refuted), a year in a note below years or months becomes a date or an error (C65_year_note_refuted, C65_month_note_refuted), any word below days becomes the next day (C65_day_note_refuted), and a note right below dates written as texts loses the last of them (C65_last_date_refuted). Proved for the notes described in the quantifier."
  },
  {
   "property": "C66",
   "status": "partial",
   "theorems": [
    "C66_dated_partial",
    "C66_every_row_partial",
    "C66_no_gaps_partial",
    "C66_saturday_refuted",
    "C66_mid_month_refuted",
    "C66_left_out_refuted",
    "C66_several_partial",
    "C66_implicit_partial"
   ],
   "note": "The full claim is refuted: daily dates with a Saturday (C66_saturday_refuted), a date in the middle of a month (C66_mid_month_refuted), and a number left out of a non continuous series (C66_left_out_refuted) move numbers to dates of other rows. Proved for dates that are the first of their periods (working days for daily data), for a date in every row without gaps between them, and, with nothing asked of the sheet, for series without missings or blank rows whose index is in one column or row and time_alignment is not negative (C66_no_gaps_partial). Also for series of several frequencies with a date in every row (C66_several_partial) and for implicit missings, which fill in the periods without a row (C66_implicit_partial), both continuous and without blank rows."
  },
  {
   "property": "C67",
   "status": "proved",
   "theorems": [
    "C67_cycles"
   ],
   "note": "Dates in the cells (typed dates, no texts); implicit missings not asked for. A column whose last cycle lacks one of the frequencies is refused (C37_last_cycle)."
  },
  {
   "property": "C68",
   "status": "proved",
   "theorems": [
    "C68_values",
    "C68_parameters",
    "C68_symmetric",
    "C68_transitive",
    "C68_itself"
   ],
   "note": "Comparison of copies: Python compares elements of lists by identity first, so the very same NaN object inside two lists is equal to itself, which the model (values without identity) does not have."
  },
  {
   "property": "C69",
   "status": "partial",
   "theorems": [
    "C69_located",
    "C69_nothing",
    "C69_frames",
    "C69_directory",
    "C69_letters",
    "C69_one",
    "C69_elsewhere_refuted"
   ],
   "note": "False for directories: one given without an extension is always taken for a workbook (C69_directory), one whose path has the extension elsewhere is not found (C69_elsewhere_refuted), and one of several json frames cannot be asked for by its index since Python 3 has no string.lowercase (C69_letters). A csv or json that does not exist gives no frames and no error (so_nothing). Reading by pandas is an argument."
  },
  {
   "property": "C70",
   "status": "partial",
   "theorems": [
    "C70_singles",
    "C70_several",
    "C70_back_refuted"
   ],
   "note": "Proved for workbooks of one sheet. At the first workbook of several sheets the call raises AttributeError, with the ones before it written and the current directory changed (C70_several, C70_back_refuted). Writing is taken to succeed."
  },
  {
   "property": "C71",
   "status": "proved",
   "theorems": [
    "C71_nearest",
    "C71_outside",
    "C71_relative",
    "C71_cases",
    "C71_numbered"
   ],
   "note": "Paths of POSIX without empty names; the limit of Python on the depth of calls is not modelled (it raises the same RecursionError on found directories about a thousand levels up). Case number 0 counts as none and gives the directory."
  },
  {
   "property": "C72",
   "status": "partial",
   "theorems": [
    "C72_tables",
    "C72_every_series",
    "C72_rows_refuted"
   ],
   "note": "Proved for dates that are first dates of periods, in one column (row), for indexes in columns, and in rows when data_ends is given. In rows without data_ends two tables that are answered one by one raise TypeError together (C72_rows_refuted): cleaning the first looks one column beyond the sheet and so makes it wider."
  },
  {
   "property": "C73",
   "status": "partial",
   "theorems": [
    "C73_columns_table_partial",
    "C73_one_header_refuted"
   ],
   "note": "Proved for texts read as dates by the grammars of C40 - C42 and C64, with no more time headers than headers, time_alignment 0 and plain headers. A single series with its index in two columns comes out twice, as GDP and GDP.2 (C73_one_header_refuted): the cells of the time header are counted as series."
  },
  {
   "property": "C74",
   "status": "partial",
   "theorems": [
    "C74_compact_says",
    "C74_restored_partial",
    "C74_context_refuted",
    "C74_composed_refuted",
    "C74_twice_refuted",
    "C74_one_split_refuted"
   ],
   "note": "What the dictionary says is proved for every object (C74_compact_says). That it gives the object back is proved for objects whose series have neither composed headers nor context and have their markers in common, with time headers that are one cell, the same columns, or cells that make no run (C74_restored_partial). It is false with a context (C74_context_refuted), with the same composed headers for all the series (C74_composed_refuted), with the same header twice (C74_twice_refuted) and for one series with its index in two columns (C74_one_split_refuted)."
  },
  {
   "property": "C75",
   "status": "proved",
   "theorems": [
    "C75_remove",
    "C75_uneven"
   ],
   "note": "With differents=False the lists have to be comparable: not empty, and of plain values or beginning with a list."
  },
  {
   "property": "C76",
   "status": "proved",
   "theorems": [
    "C76_common",
    "C76_refused",
    "C76_between",
    "C76_alone"
   ],
   "note": "Exact (iff) for the number and for the refusal."
  },
  {
   "property": "C77",
   "status": "partial",
   "theorems": [
    "C77_check_partial",
    "C77_fewer_refuted",
    "C77_itself",
    "C77_names",
    "C77_names_refuted",
    "C77_parameters",
    "C77_uneven"
   ],
   "note": "The check is proved for results of as many frames as expected (C77_check_partial); results with fewer frames, or none at all, and with more frames pass too (C77_fewer_refuted). File names are different unless a digit begins the special version (C77_names, C77_names_refuted)."
  },
  {
   "property": "C78",
   "status": "partial",
   "theorems": [
    "C78_frames_partial",
    "C78_total_refuted",
    "C78_every_year_refuted",
    "C78_missings_refuted"
   ],
   "note": "Holds when the year is written once, in the first row of every five (and missings is False for AQQQQ). Refuted otherwise: with the number of the year beside its total the total is dated in October and the call fails (C78_total_refuted); with the year in the text of every quarter all are taken for the first one (C78_every_year_refuted); with missings the second year of AQQQQ is dated in October in the cleaned index (C78_missings_refuted)."
  },
  {
   "property": "C79",
   "status": "proved",
   "theorems": [
    "C79_strategies",
    "C79_alphabetical",
    "C79_order_free",
    "C79_times",
    "C79_others",
    "C79_first",
    "C79_found"
   ],
   "note": "The classes themselves are not modelled, only their names and whether they are exceptions."
  },
  {
   "property": "C80",
   "status": "partial",
   "theorems": [
    "C80_most",
    "C80_order",
    "C80_infinite",
    "C80_shown_partial",
    "C80_negative_refuted",
    "C80_truncate_refuted"
   ],
   "note": "The maximum, the order, nan and infinities for every list; the decimals are those shown by the text of the number cut to 17 digits. The signs matter (C80_negative_refuted: 4.35 has two decimals and -4.35 fifteen) and truncate(0.29, 2) is 0.28 (C80_truncate_refuted). str() of a float is an argument."
  },
  {
   "property": "C81",
   "status": "proved",
   "theorems": [
    "C81_same_answer",
    "C81_size_refuted"
   ],
   "note": "C81_same_answer: equality of frames and of exceptions; C81_size_refuted shows the condition on the size is needed when data_ends is left out."
  },
  {
   "property": "C82",
   "status": "proved",
   "theorems": [
    "C82_same_answer"
   ],
   "note": "moved_down and moved_params (SpecMove.v) relate the two sheets and the two objects; both layouts, complete and incomplete parameters."
  },
  {
   "property": "C83",
   "status": "proved",
   "theorems": [
    "C83_pick",
    "C83_raises",
    "C83_own_parameters_refuted"
   ],
   "note": "one_index and series_at (SpecSelect.v) say what the objects share and which series are picked; C83_own_parameters_refuted shows why the parameters of the index have to be shared."
  },
  {
   "property": "C84",
   "status": "proved",
   "theorems": [
    "C84_same_answer"
   ],
   "note": "rearranged and placed_params (SpecSwap.v) say what the two sheets and the two objects have in common; the used columns have to be inside both sheets, and coordinates are written in their usual form, as in C82."
  },
  {
   "property": "C85",
   "status": "partial",
   "theorems": [
    "C85_again_partial",
    "C85_note_refuted",
    "C85_composed_refuted",
    "C85_rows_refuted"
   ],
   "note": "proved for an index in one column, or one row with data_ends, whose dates are not composed (plain_index, SpecAgain.v). The full claim is false: a composed index raises the second time (C85_composed_refuted), a row without data_ends raises TypeError (C85_rows_refuted), and a note that the first call left out may become a date of the second (C85_note_refuted)."
  },
  {
   "property": "C86",
   "status": "proved",
   "theorems": [
    "C86_values",
    "C86_named"
   ],
   "note": "filled, called_otherwise and all_named (SpecNaming.v) say which objects. Without names a call may still raise for a blank parent header (C54_parent_raises)."
  },
  {
   "property": "C87",
   "status": "proved",
   "theorems": [
    "C87_one_value",
    "C87_no_series"
   ],
   "note": "just_a_value, differ_at and on_series (SpecValue.v) say which cells; up_to counts the columns that differ in all the frames together, so a series of several frequencies changes in one frame only."
  },
  {
   "property": "C88",
   "status": "proved",
   "theorems": [
    "C88_beginning"
   ],
   "note": "sooner, headers_before and dates_in_time (SpecPrefix.v) say what the two sets of parameters share; goes_on says how the frames are related."
  },
  {
   "property": "C89",
   "status": "proved",
   "theorems": [
    "C89_defaults",
    "C89_found",
    "C89_raises"
   ],
   "note": "left_out, written_down, the_defaults and valid_choice (SpecLeave.v) say what the two calls share. The values are written down once for all the series, as the search does."
  },
  {
   "property": "C90",
   "status": "proved",
   "theorems": [
    "C90_critical_template",
    "C90_same_templates"
   ],
   "note": "The table is described by clean_columns (SpecEnd.v) with the five header cells written out."
  },
  {
   "property": "C91",
   "status": "proved",
   "theorems": [
    "C91_another_way",
    "C91_mark_renamed"
   ],
   "note": "rewritten, other_marks and same_reading (SpecWrite.v) say how the two tables are related. A cell with white space around its text is in the claim when it is the same in both sheets and the marks are the same, since a continuous series strips the text and the others do not. Both sets of marks, or none, have Implicit and the empty cell."
  },
  {
   "property": "C92",
   "status": "proved",
   "theorems": [
    "C92_plain_first",
    "C92_raises",
    "C92_nothing_left_out"
   ],
   "note": "left_out, written_down and valid_choice (SpecLeave.v) are those of C89. It is not claimed that safe mode succeeds whenever the plain call does: it compares the results, which can raise an exception of its own."
  },
  {
   "property": "C93",
   "status": "partial",
   "theorems": [
    "C93_likeliness_refuted",
    "C93_order_partial",
    "C93_order_unique"
   ],
   "note": "The order of the likeliness is refuted: when the last name of the list is not missing (and time_multicolumn, the last one, is always guessed) the generator takes the first missing name from the front, so that the most likely default is the first one changed. Proved: the attempts are nested loops with the default first in each, and exactly which loop is inside which (loops_of in SpecOrder.v), which is unique."
  }
 ]
}