{"id": "C01", "title": "Header ranges expand to exactly the cells of the rectangle", "statement": "Writing a header range 'X-Y' (or 'X:Y', in any letter case) in headers_coord or time_header_coord is the same as listing every cell of the rectangle with corners X and Y, row by row and left to right, each cell once.", "quantifier": "every pair of corner cells with column A..ZZZ and row >= 1", "why_tests_cant": "there are unboundedly many rectangles; crossing Z/AA, ZZ/AAA and multi-digit rows cannot be covered by examples", "anchors": ["xlseries/strategies/discover/parameters.py:_unpack_header_ranges_generator", "xlseries/utils/xl_methods.py:xl_coordinates_range"]}
{"id": "C02", "title": "Cell coordinates round-trip", "statement": "Converting a column number to letters, appending the row number and reading the coordinate back yields the same cell; two different cells never share a coordinate text.", "quantifier": "every column 1..18278 and every row >= 1", "why_tests_cant": "18278 columns times unboundedly many rows", "anchors": ["xlseries/utils/xl_methods.py:xl_coordinates_range", "xlseries/strategies/clean/time_index.py:_time_index_iterator", "xlseries/strategies/get/period_range.py:_get_period_ranges"]}
{"id": "C03", "title": "Composed header ranges pair up", "statement": "A composed range '(A1_B1)-(An_Bn)' declares exactly one series per position, whose header is the cell of the last component and whose composed headers are the cells of the earlier components at the same position.", "quantifier": "every number of components and every range whose components have the same shape", "why_tests_cant": "number of components and range lengths are unbounded", "anchors": ["xlseries/strategies/discover/parameters.py:_unpack_header_ranges_generator", "xlseries/strategies/discover/parameters.py:_separate_composed_headers"]}
{"id": "C04", "title": "Context applies to the headers under or right of its range", "statement": "A context entry given by a horizontal (vertical) run of cells is attached to a header exactly when the header lies at or below (at or right of) that run and shares a column (row) with one of its cells.", "quantifier": "every header cell and every run of context cells", "why_tests_cant": "quantifies over all cells, including columns past Z where letters no longer sort like numbers", "anchors": ["xlseries/utils/xl_methods.py:coord_in_scope", "xlseries/strategies/discover/parameters.py:_process_context"]}
{"id": "C05", "title": "Consecutive cell detection", "statement": "consecutive_cells(cells) answers True exactly when the cells form an unbroken left-to-right or top-to-bottom run.", "quantifier": "every list of cells", "why_tests_cant": "lists are unbounded and any single stray cell must be noticed", "anchors": ["xlseries/utils/xl_methods.py:consecutive_cells", "xlseries/strategies/discover/parameters.py:_guess_time_multicolumn", "xlseries/strategies/discover/parameters.py:_guess_alignment"]}
{"id": "C06", "title": "A missing critical parameter is always rejected", "statement": "Building Parameters from a dictionary that lacks time_header_coord, headers_coord, data_starts or frequency, or has None there, raises CriticalParameterMissing whatever the other entries are.", "quantifier": "every dictionary of parameters", "why_tests_cant": "the rest of the dictionary is arbitrary", "anchors": ["xlseries/strategies/discover/parameters.py:_check_has_critical", "xlseries/strategies/discover/parameters.py:_build"]}
{"id": "C07", "title": "Invalid parameter values never get through", "statement": "If building Parameters succeeds, every value the user gave for a parameter with a closed set of valid values belongs to that set, and every frequency is made only of the letters A, S, Q, M, W, D.", "quantifier": "every dictionary of parameters with values of any type", "why_tests_cant": "values range over all Python objects a JSON or dict can hold", "anchors": ["xlseries/strategies/discover/parameters.py:_validate_parameters", "xlseries/strategies/discover/parameters.py:_valid_param_value", "xlseries/strategies/discover/parameters.py:_valid_freq"]}
{"id": "C08", "title": "Frequency spelling is normalised", "statement": "Frequencies are case-insensitive, Y means A, YQQQQ means AQQQQ and QQQQY means QQQQA, for a single value as well as for each value of a list.", "quantifier": "every frequency text and every list of them", "why_tests_cant": "all letter-case variants and list lengths", "anchors": ["xlseries/strategies/discover/parameters.py:_build", "xlseries/strategies/discover/parameters.py:FREQ_TRANSLATION"]}
{"id": "C09", "title": "A value given once applies to every series", "statement": "A parameter given as a single value (or one-element list) is the value every series sees; a parameter given as a list with one value per series gives series i its i-th value.", "quantifier": "every parameter, number of series and series index", "why_tests_cant": "number of series is unbounded", "anchors": ["xlseries/strategies/discover/parameters.py:_apply_to_all", "xlseries/strategies/discover/parameters.py:get_series_params", "xlseries/strategies/discover/parameters.py:_apply_to_all_missing_value"]}
{"id": "C10", "title": "One series per header", "statement": "The number of series of a built Parameters object is the number of header cells the user declared.", "quantifier": "every dictionary of parameters that builds", "why_tests_cant": "depends on the combination of lengths of every list parameter", "anchors": ["xlseries/strategies/discover/parameters.py:_get_num_series", "xlseries/strategies/discover/parameters.py:_build"]}
{"id": "C11", "title": "Explicit values win over guesses", "statement": "If the user states alignment or time_multicolumn, every series uses the stated value; guessing happens only when it was not stated.", "quantifier": "every dictionary of parameters that builds", "why_tests_cant": "the guess depends on arbitrary header and time header cells", "anchors": ["xlseries/strategies/discover/parameters.py:_build", "xlseries/strategies/discover/parameters.py:_guess_time_multicolumn", "xlseries/strategies/discover/parameters.py:_guess_alignment"]}
{"id": "C12", "title": "Guessed alignment is sound", "statement": "Whenever the package guesses 'vertical' all headers are in one row in distinct columns, whenever it guesses 'horizontal' they are in one column in distinct rows, and it guesses nothing for a single header.", "quantifier": "every list of header cells", "why_tests_cant": "unbounded list of cells", "anchors": ["xlseries/strategies/discover/parameters.py:_guess_alignment"]}
{"id": "C13", "title": "Data must start after the headers", "statement": "Building Parameters with a stated alignment, or with headers that lie in one row or one column, succeeds only if the first data row (column) is after the first header row (column).", "quantifier": "every dictionary of parameters", "why_tests_cant": "all positions", "anchors": ["xlseries/strategies/discover/parameters.py:_check_consistency"]}
{"id": "C14", "title": "A Parameters object can be rebuilt from itself", "statement": "Parameters(p) succeeds and equals p for every Parameters object p.", "quantifier": "every Parameters object built from a dictionary", "why_tests_cant": "quantifies over all objects", "anchors": ["xlseries/strategies/discover/parameters.py:__init__", "xlseries/strategies/discover/parameters.py:_get_params_dict", "xlseries/strategies/discover/parameters.py:_validate_parameters"]}
{"id": "C15", "title": "Rejected assignments change nothing", "statement": "params[name] = value either stores a valid per-series list, or raises and leaves every parameter as it was.", "quantifier": "every Parameters object, parameter name and value", "why_tests_cant": "arbitrary values", "anchors": ["xlseries/strategies/discover/parameters.py:__setitem__", "xlseries/strategies/discover/parameters.py:_valid_param_list"]}
{"id": "C16", "title": "The search tries every combination exactly once", "statement": "When some parameters are missing, the attempts are exactly all the combinations of valid values of the missing parameters, each tried once.", "quantifier": "every set of missing parameters, valid-value lists, defaults and likeliness order covering them", "why_tests_cant": "the number of combinations is exponential and the recursion order is data dependent", "anchors": ["xlseries/strategies/strategies.py:_param_combinations_generator", "xlseries/strategies/strategies.py:_generate_attempts"]}
{"id": "C17", "title": "Defaults are tried first", "statement": "The first attempt gives every missing parameter its documented default value.", "quantifier": "every set of missing parameters", "why_tests_cant": "all subsets and orders", "anchors": ["xlseries/strategies/strategies.py:_param_combinations_generator"]}
{"id": "C18", "title": "Attempts keep what the user gave", "statement": "Every attempt is a complete set of parameters and agrees with the user's parameters on everything the user gave.", "quantifier": "every incomplete Parameters object", "why_tests_cant": "arbitrary objects", "anchors": ["xlseries/strategies/strategies.py:_generate_attempts"]}
{"id": "C19", "title": "Without safe mode the first successful attempt is the answer", "statement": "With several attempts and safe_mode False the result is that of the first attempt, in order, that does not raise; attempts before it have no effect on it; if all raise, an exception is raised.", "quantifier": "every list of attempts and every behaviour of each attempt", "why_tests_cant": "attempt behaviours are arbitrary", "anchors": ["xlseries/strategies/strategies.py:_get_data_frames"]}
{"id": "C20", "title": "Safe mode returns distinct results", "statement": "With safe_mode True, results that are equal are returned only once.", "quantifier": "every list of attempt outcomes", "why_tests_cant": "arbitrary outcomes", "anchors": ["xlseries/strategies/strategies.py:_get_data_frames", "xlseries/utils/data_frame.py:compare_data_frames"]}
{"id": "C21", "title": "The user's workbook is preserved", "statement": "With preserve_wb_obj True no cell of the user's workbook changes value, whatever happens (success or exception); when several attempts are made this holds even with preserve_wb_obj False.", "quantifier": "every workbook, parameters and outcome", "why_tests_cant": "needs every execution path including exceptions", "anchors": ["xlseries/xlseries.py:get_data_frames", "xlseries/utils/xl_methods.py:make_wb_copy", "xlseries/utils/xl_methods.py:make_ws_copy"]}
{"id": "C22", "title": "The user's parameters are preserved", "statement": "get_data_frames does not modify the parameters object the user passed.", "quantifier": "every parameters dictionary or Parameters object and every sheet", "why_tests_cant": "needs every execution path", "anchors": ["xlseries/strategies/strategies.py:__init__", "xlseries/strategies/strategies.py:_clean_data"]}
{"id": "C23", "title": "Worksheet names are resolved safely", "statement": "A name that exists is used as is; otherwise the first sheet whose stripped name matches is used, then the first whose ASCII-folded stripped name matches; when nothing matches an exception is raised; no name means the first sheet.", "quantifier": "every requested name and every list of sheet names", "why_tests_cant": "all strings", "anchors": ["xlseries/xlseries.py:_sanitize_ws_name", "xlseries/xlseries.py:get_data_frames"]}
{"id": "C24", "title": "The cleaned time index is strictly increasing", "statement": "For a single-frequency series the dates written to the time index are strictly increasing in reading order.", "quantifier": "every sheet and every single-frequency parameters", "why_tests_cant": "arbitrary cell contents, arbitrary length", "anchors": ["xlseries/strategies/clean/time_index.py:_clean_time_index", "xlseries/strategies/clean/time_index.py:_correct_progression"]}
{"id": "C25", "title": "Without missings the time index is gapless", "statement": "For a single-frequency series with missings False every date written is exactly one period after the one written before it.", "quantifier": "every sheet and every single-frequency parameters with missings False", "why_tests_cant": "arbitrary cell contents, arbitrary length", "anchors": ["xlseries/strategies/clean/time_index.py:_correct_progression", "xlseries/utils/time_manipulation.py:increment_time"]}
{"id": "C26", "title": "Valid dates are kept", "statement": "A time index whose cells already hold strictly increasing dates is left with exactly those dates.", "quantifier": "every such sheet", "why_tests_cant": "arbitrary dates and lengths", "anchors": ["xlseries/strategies/clean/time_index.py:_clean_time_index", "xlseries/strategies/clean/time_index.py:_correct_progression", "xlseries/strategies/clean/time_index.py:_time_value_typo"]}
{"id": "C27", "title": "Cleaning touches only the time index", "statement": "Cleaning the time index changes no cell outside the time column (row) nor before the first data row (column).", "quantifier": "every sheet and parameters", "why_tests_cant": "all other cells of the sheet", "anchors": ["xlseries/strategies/clean/time_index.py:_clean_time_index"]}
{"id": "C28", "title": "The end of the series is the last date", "statement": "When the user gives no data_ends, the end found is the position of the last date of the time index, after data_starts; trailing notes are not part of the series.", "quantifier": "every sheet and parameters, vertical or horizontal", "why_tests_cant": "arbitrary lengths and trailing content", "anchors": ["xlseries/strategies/clean/time_index.py:_estimate_end", "xlseries/strategies/clean/time_index.py:_clean_time_index"]}
{"id": "C29", "title": "Blank runs are tolerated up to a limit", "statement": "With blank_rows (or continuity False), runs of up to 40 cells without a time value do not stop the reading of the time index; a longer run does; without them the first blank stops it.", "quantifier": "every sheet and position of the run", "why_tests_cant": "positions and lengths are unbounded", "anchors": ["xlseries/strategies/clean/time_index.py:_clean_time_index", "xlseries/strategies/clean/time_index.py:NO_TIME_VALUE_LIMIT"]}
{"id": "C30", "title": "Multi-frequency values follow the declared cycle", "statement": "In a multi-frequency series with frequency f1..fn, the k-th value goes to the series of frequency f(k mod n), so each frequency receives exactly the values at its positions, in order.", "quantifier": "every frequency text of length >= 2 and every list of values", "why_tests_cant": "unbounded number of cycles", "anchors": ["xlseries/strategies/get/data.py:_next_frequency", "xlseries/strategies/get/data.py:_get_values", "xlseries/strategies/clean/time_index.py:_next_frequency"]}
{"id": "C31", "title": "Implicit missings are filled in place", "statement": "With implicit missings, every observation is put at the period of its date and every period without observation holds NaN.", "quantifier": "every strictly increasing list of on-grid dates and every list of values", "why_tests_cant": "number and size of the holes are unbounded", "anchors": ["xlseries/strategies/get/data.py:_fill_implicit_missings"]}
{"id": "C32", "title": "Numbers come from the series' own cells", "statement": "For a continuous series, the k-th value is the number in the k-th non-skipped cell of the series' column (row) between start and end; missing markers become NaN, anything else that is not a number raises instead of being dropped.", "quantifier": "every sheet and parameters", "why_tests_cant": "arbitrary cell contents and lengths", "anchors": ["xlseries/strategies/get/data.py:_get_values", "xlseries/strategies/get/data.py:_values_iterator", "xlseries/strategies/get/data.py:_handle_new_value"]}
{"id": "C33", "title": "Non continuous series only take rows with a date", "statement": "For a non continuous series a value is taken exactly when its cell is a number or missing marker and its time cell holds a date; everything else is skipped.", "quantifier": "every sheet and parameters", "why_tests_cant": "arbitrary cell contents and lengths", "anchors": ["xlseries/strategies/get/data.py:_handle_new_value", "xlseries/strategies/get/data.py:_value_to_be_added"]}
{"id": "C34", "title": "Returned frames are rectangular", "statement": "In every frame returned, every column has exactly one value per date of the index; a series with too many or too few values raises instead of being misaligned.", "quantifier": "every sheet and parameters", "why_tests_cant": "arbitrary lengths", "anchors": ["xlseries/strategies/strategies.py:_get_data"]}
{"id": "C35", "title": "Column names are unique", "statement": "The columns of a returned frame are pairwise distinct; repeated header names get the suffixes .2, .3, ... and no earlier column is renamed.", "quantifier": "every sequence of header names", "why_tests_cant": "unbounded repetitions and adversarial names", "anchors": ["xlseries/strategies/strategies.py:_add_name", "xlseries/strategies/strategies.py:_indexed_name"]}
{"id": "C36", "title": "Every series lands in the frame of its dates", "statement": "Series sharing frequency, first and last date share a frame; each header contributes exactly one column per frequency, in header order.", "quantifier": "every sheet and parameters", "why_tests_cant": "unbounded number of series", "anchors": ["xlseries/strategies/strategies.py:_get_data", "xlseries/strategies/strategies.py:_hash_period_range"]}
{"id": "C37", "title": "The frame index lists every period between the first and last date", "statement": "The index holds every period start of the frequency from the first to the last cleaned date, in order, each once.", "quantifier": "every start and end date and every frequency A, S, Q, M, W, D", "why_tests_cant": "unbounded ranges", "anchors": ["xlseries/strategies/get/period_range.py:_get_period_ranges", "xlseries/strategies/get/period_range.py:_convert_freq"]}
{"id": "C38", "title": "A clean sheet is scraped exactly", "statement": "A sheet with consecutive period-start dates in a column from data_starts on and numbers in each header's column yields, giving only the critical parameters, one frame with those dates, those columns and those numbers.", "quantifier": "every number of rows and series, every start date, every number, every frequency D, W, M, Q and A", "why_tests_cant": "unbounded sizes", "anchors": ["xlseries/xlseries.py:get_data_frames", "xlseries/strategies/strategies.py:_get_data_frames"]}
{"id": "C39", "title": "Vertical and horizontal sheets are equivalent", "statement": "Scraping the transposed sheet with the transposed parameters gives the same values and the same period range.", "quantifier": "every sheet and single-frequency parameters", "why_tests_cant": "all sheets", "anchors": ["xlseries/strategies/get/data.py:_values_iterator", "xlseries/strategies/get/period_range.py:_get_period_ranges", "xlseries/strategies/clean/time_index.py:_time_index_iterator"]}
{"id": "C40", "title": "Composed quarter texts are read correctly", "statement": "Texts of the documented quarterly forms ('1986 1o trim.', 'III.1963', '2 Trim 07', 'IV 01', notes included) denote the first month of that quarter and that year; a text without year takes the year of the previous date.", "quantifier": "every year, quarter, spacing and note number", "why_tests_cant": "all years, paddings and reference marks", "anchors": ["xlseries/strategies/clean/parse_time.py:ParseComposedQuarter1", "xlseries/strategies/clean/parse_time.py:ParseComposedQuarter2", "xlseries/strategies/clean/parse_time.py:ParseComposedQuarter3", "xlseries/strategies/clean/parse_time.py:ParseComposedQuarter4", "xlseries/strategies/clean/parse_time.py:_quarter_num_to_month"]}
{"id": "C41", "title": "Composed month texts are read correctly", "statement": "Texts '<year> <month name>', '<month name> <year>', '<month name>', 'YYYY<sep>MM', 'MM<sep>YYYY', 'MM' denote the first day of that month, the year defaulting to that of the previous date.", "quantifier": "every year, month, separator, spacing and any trailing text", "why_tests_cant": "all years, month names and trailing texts", "anchors": ["xlseries/strategies/clean/parse_time.py:ParseComposedMonth1", "xlseries/strategies/clean/parse_time.py:ParseComposedMonth2", "xlseries/strategies/clean/parse_time.py:_month_str_to_num"]}
{"id": "C42", "title": "Year texts are read correctly", "statement": "A text with one four digit year, optionally between notes '(n)', denotes January 1st of that year, and 'YYYY/YY' that of its first year.", "quantifier": "every year and note", "why_tests_cant": "all years and notes", "anchors": ["xlseries/strategies/clean/parse_time.py:ParseComposedYear1", "xlseries/strategies/clean/parse_time.py:ParseComposedYear2"]}
{"id": "C43", "title": "Two digit years map to 1969-2068", "statement": "A two digit year yy is read as 20yy up to 68 and as 19yy from 69 on.", "quantifier": "every two digit year", "why_tests_cant": "must hold for every value used in any grammar", "anchors": ["xlseries/strategies/clean/parse_time.py:_dob_year_to_four"]}
{"id": "C44", "title": "Semester series", "statement": "A semester series (frequency S) whose texts are consecutive semesters is read with those dates.", "quantifier": "every list of consecutive semesters", "why_tests_cant": "unbounded lengths", "anchors": ["xlseries/strategies/clean/parse_time.py:ParseComposedSemester", "xlseries/strategies/clean/time_index.py:_correct_progression", "xlseries/utils/time_manipulation.py:increment_time"]}
{"id": "C45", "title": "Simple dates are disambiguated by their neighbours", "statement": "A text date made of day, month and year in one of the orders D-M-Y, M-D-Y, Y-M-D (separators -, . or /) is read as a date that is after the previous one, at most 20 periods after it and before the next one.", "quantifier": "every text, previous and next date and every frequency D, W, M, Q and A", "why_tests_cant": "all dates and orders", "anchors": ["xlseries/strategies/clean/parse_time.py:ParseSimpleTime"]}
{"id": "C46", "title": "Time increments are exact", "statement": "Moving a date n periods forward moves it by n days, weeks, months, quarters or years (clamping the day to the month length), is strictly increasing in n, and moving by m then n from the first of a month equals moving by m+n.", "quantifier": "every date and every number of periods", "why_tests_cant": "all dates", "anchors": ["xlseries/utils/time_manipulation.py:increment_time"]}
{"id": "C47", "title": "Approximate comparison is an equivalence up to tolerance", "statement": "approx_equal is reflexive (NaN included), symmetric, and accepts numbers whose relative difference is within the tolerance.", "quantifier": "every pair of numbers", "why_tests_cant": "all floats", "anchors": ["xlseries/utils/comparing.py:approx_equal"]}
{"id": "C48", "title": "Frame comparison accepts equal frames and detects differences", "statement": "compare_data_frames returns True for a frame and itself, and raises if index size, frequency, columns or dates differ, or if some value differs from the one in its place by more than 0.0001 of itself or only one of them is NaN, unless the value of the first frame is infinite.", "quantifier": "every pair of frames with distinct column names", "why_tests_cant": "all frames", "anchors": ["xlseries/utils/data_frame.py:compare_data_frames"]}
{"id": "C49", "title": "Frequency inference is unambiguous", "statement": "infer_freq never has two candidate frequencies within tolerance and recognises every regular series of the frequency it names.", "quantifier": "every average step", "why_tests_cant": "continuum of inputs", "anchors": ["xlseries/utils/time_manipulation.py:infer_freq"]}
{"id": "C50", "title": "Copies are faithful", "statement": "make_wb_copy and make_ws_copy return sheets with the same titles, in the same order, with the same value in every cell.", "quantifier": "every workbook", "why_tests_cant": "all sheets", "anchors": ["xlseries/utils/xl_methods.py:make_wb_copy", "xlseries/utils/xl_methods.py:make_ws_copy"]}
{"id": "C51", "title": "Exactly one reading strategy applies", "statement": "For every non-empty frequency exactly one data strategy, one period-range strategy and one single-table cleaning strategy accept the parameters.", "quantifier": "every parameters", "why_tests_cant": "all combinations", "anchors": ["xlseries/strategies/get/data.py:get_strategies", "xlseries/strategies/clean/time_index.py:get_strategies", "xlseries/strategies/get/period_range.py:get_strategies"]}
{"id": "C52", "title": "Blank headers are removed consistently", "statement": "Removing blank headers keeps exactly the series whose header or some composed header has a value, in order, with all their own parameters.", "quantifier": "every Parameters object and sheet", "why_tests_cant": "number of series unbounded", "anchors": ["xlseries/strategies/discover/parameters.py:remove_blank_headers", "xlseries/strategies/discover/parameters.py:remove_series"]}
{"id": "C53", "title": "Numbers stored as text are read as the same numbers", "statement": "A cell holding the decimal text of an integer gives the same value as a cell holding the integer.", "quantifier": "every integer within the range of floats and every decimal text of it but -0", "why_tests_cant": "all integers", "anchors": ["xlseries/strategies/get/data.py:_handle_new_value"]}
{"id": "C54", "title": "Series are named after their headers", "statement": "A column is named with the series name the user gave or else with the text of its header cell, preceded by the texts of its composed (parent) headers separated by blanks and by its context entries separated by ' - ', each without the blanks around it.", "quantifier": "every sheet, header, number of composed headers and of context entries", "why_tests_cant": "The number and contents of headers, parents and contexts are unbounded; a test fixes a few.", "anchors": ["xlseries/strategies/get/data.py: BaseGetDataStrategy._get_name"]}
{"id": "C55", "title": "Well formed parameters are accepted exactly when the data come after the headers", "statement": "A parameter dictionary with known names given once, values of the right kind, the critical parameters, and readable coordinates is accepted when the first data row (column) lies after the first header, and rejected otherwise.", "quantifier": "every dictionary: any subset of the optional parameters, values given once or per series, any cells", "why_tests_cant": "The combinations of parameters and values are unbounded; a test can only try a few dictionaries.", "anchors": ["xlseries/strategies/discover/parameters.py:Parameters.__init__", "xlseries/strategies/discover/parameters.py:Parameters._build", "xlseries/strategies/discover/parameters.py:Parameters._check_consistency"]}
{"id": "C56", "title": "Calls on one XlSeries object do not influence each other", "statement": "While the workbook is preserved (the default), a call of get_data_frames with a dictionary, a path or a Parameters object not used before brings exactly what it would have brought as the first call, whatever calls were made before and however they ended; and the parameters kept for a sheet are those of the last call that brought series from it.", "quantifier": "every workbook, every finite history of earlier calls with any arguments (also failing ones), every call", "why_tests_cant": "Histories of calls are unbounded in number and kind; a test replays a few.", "anchors": ["xlseries/xlseries.py:XlSeries.get_data_frames", "xlseries/xlseries.py:XlSeries.__init__", "xlseries/utils/xl_methods.py:make_wb_copy"]}
{"id": "C57", "title": "Opening an .xls keeps its contents", "statement": "XlSeries opens a path ending in .xlsx with openpyxl and one ending in .xls by converting it, and refuses any other. The converted workbook has the sheets of the file in the same order, and every text, number, truth value, error code and date of a cell is found in the same place.", "quantifier": "every path; every file: any number of sheets, rows, columns and contents of the cells", "why_tests_cant": "Files are unbounded in size and contents; a test opens a few.", "anchors": ["xlseries/xlseries.py:XlSeries._load_wb", "xlseries/utils/xl_methods.py:open_xls_as_xlsx"]}
{"id": "C58", "title": "Comparing workbooks, date ranges and lists of values finds every difference where both go", "statement": "When compare_cells returns, it returns True and every pair of cells in a place both workbooks reach holds two numbers within 0.00001 of each other, the same text up to blanks around it (an empty cell counting as an empty text), or the same date; otherwise it raises. A workbook passes against itself and against a copy, and workbooks with the same contents where both reach pass. compare_period_ranges answers True exactly for equal, non-empty ranges of dates, and compare_list_values only when the values agree one by one.", "quantifier": "every pair of workbooks, whatever their sheets and cells; every pair of date ranges built from real dates with a known frequency; all lists of floats", "why_tests_cant": "The two workbooks, and the cell in which they differ, are arbitrary; tests only compare a few recorded workbooks with themselves.", "anchors": ["xlseries/utils/xl_methods.py: compare_cells, compare_cells_ws, normalize_value", "xlseries/utils/data_frame.py: compare_period_ranges", "xlseries/utils/comparing.py: compare_list_values, approx_equal"]}
{"id": "C59", "title": "A clean table whose dates are texts is scraped exactly by a whole call", "statement": "Calling get_data_frames with a dictionary of parameters on a sheet whose index says consecutive period starts as texts gives one data frame with exactly those dates, the names of the series and their numbers. The texts are quarters, months or years in one of the styles of composed texts (time_composed True), or dates with day, month and year (time_composed False). The index reaches the last row (or column) of the sheet, or the given data_ends, or in a column blanks and notes follow it as in C38, and the headers are not in the line of the index.", "quantifier": "every workbook, sheet, number of series and of periods, position of the table, columns or rows, style of text, choice of continuity, blank rows, explicit missing markers, given or read names, and preserve_wb_obj", "why_tests_cant": "The texts, their style, the year left out or repeated, the blanks and notes around them, and the size and place of the table are arbitrary; the integration tests read a few recorded sheets.", "anchors": ["xlseries/xlseries.py: XlSeries.get_data_frames", "xlseries/strategies/strategies.py: ParameterDiscovery.get_data_frames", "xlseries/strategies/clean/time_index.py: BaseCleanTiStrategy.clean_time_index", "xlseries/strategies/clean/parse_time.py"]}
{"id": "C60", "title": "No number of an answer is made up, moved between series or repeated", "statement": "Whatever get_data_frames answers, and whatever the sheet and the parameters, complete or completed by trying, the columns of every data frame belong to different series, in their order. Each column holds numbers of cells in the column (or row) of the header of its series, at or after data_starts, in their order and no cell twice. Everything else is NaN, and there is none if the series is said to have no missing values. A stated alignment and stated data_ends are respected.", "quantifier": "every workbook and sheet, every dictionary of parameters or Parameters object, any number of series, any frequency including several at once, any cleaning of the index, missing values explicit or implicit, safe mode or not, preserve_wb_obj or not", "why_tests_cant": "It speaks of every successful call, on sheets of any content; the tests compare the answers for a few recorded sheets.", "anchors": ["xlseries/xlseries.py: XlSeries.get_data_frames", "xlseries/strategies/strategies.py: ParameterDiscovery", "xlseries/strategies/get/data.py", "xlseries/strategies/get/period_range.py"]}
{"id": "C61", "title": "A table with periods left out is scraped with NaN at the periods left out", "statement": "Let a sheet have dates in a column (or row) that are the first, the last and some of the periods between of a run of consecutive periods, and one number or marker of a missing value beside every date for each header. If the parameters say that missing values are left out (missing_value \"Implicit\"), then get_data_frames answers one frame with all the periods of the run, each value at its own period, NaN at the periods left out, and the names of the headers. Notes after a blank below the table change nothing.", "quantifier": "every workbook, sheet and number of series, dates and periods left out, yearly, quarterly, monthly, weekly or daily, in columns or rows, whatever follows the table after a blank", "why_tests_cant": "The place of every number depends on all the dates before it; the tests have two sheets with periods left out.", "anchors": ["xlseries/xlseries.py: XlSeries.get_data_frames", "xlseries/strategies/get/data.py: _fill_implicit_missings", "xlseries/strategies/clean/time_index.py", "xlseries/strategies/get/period_range.py"]}
{"id": "C62", "title": "A table with blank rows between its dates is scraped exactly", "statement": "Let a sheet have consecutive period starts in a column (or row) with blank cells between some of them, at most 40 in a row, and one number or marker beside every date for each header. If blank rows are declared, or the series are said not to be continuous, then get_data_frames answers one frame with the dates as its index, the values beside them and the names of the headers. Beside the blanks there is nothing, or anything at all when the series are not continuous.", "quantifier": "every workbook, sheet and number of series, dates and blank rows, every frequency of C38, in columns or rows, whatever follows the table in the ways C38 allows", "why_tests_cant": "Blank rows can be anywhere and in any number; the tests have a few sheets.", "anchors": ["xlseries/xlseries.py: XlSeries.get_data_frames", "xlseries/strategies/get/data.py", "xlseries/strategies/clean/time_index.py", "xlseries/strategies/get/period_range.py"]}
{"id": "C63", "title": "Typing mistakes in dates are corrected, and only those", "statement": "Let a sheet be a clean table but for some dates, never the first, in which the day, the month or the year is wrong (one of the three) so that the date is before the one above it, or, if no values are missing, anywhere but at the one above it. Then get_data_frames answers the frame of the table with the right dates. Conversely, whatever the sheet and the parameters, cleaning the time index leaves every date of the sheet a date in which at most one of day, month and year has changed.", "quantifier": "every workbook, sheet, number of series and dates, any number of mistakes, every frequency of C38, in columns or rows; for the converse every sheet and parameters, also when cleaning raises", "why_tests_cant": "A mistake can be in any date and of any size, and each correction depends on the ones before; the tests have a handful of wrong dates.", "anchors": ["xlseries/strategies/clean/time_index.py: _correct_progression", "xlseries/strategies/clean/time_index.py: _time_value_typo", "xlseries/strategies/clean/time_index.py: _forth_time_value_typo", "xlseries/xlseries.py: XlSeries.get_data_frames"]}
{"id": "C64", "title": "A time index in several columns is read as the texts of its cells put together", "statement": "Let the time index of a series be given by several headers (multicolumn). At each position, the cells under the headers, in the order of the headers, with the empty ones left out and a blank between the others, say a quarter, a month or a year in one style; whole numbers count as their digits. Then cleaning the time index writes the dates so said under the first header, one per position, finds the last of them as the end, and changes nothing else in the sheet.", "quantifier": "every sheet, any number of headers and of positions, columns or rows, every style of C40 - C42, with or without missings, ending with the sheet, at data_ends or before blanks", "why_tests_cant": "How the cells of a row combine depends on which are empty, numbers or texts, in any number of columns; the tests have a few literal sheets with two columns.", "anchors": ["xlseries/strategies/clean/time_index.py: BaseMultipleColumns", "xlseries/strategies/clean/time_index.py: _get_time_value", "xlseries/strategies/clean/parse_time.py: BaseComposedQuarter"]}
{"id": "C65", "title": "A note right below the last date ends the index", "statement": "Let the time index of a series be in a column (or several), without data_ends, and let a text that is no date stand right below its last date, with no blank in between. Then the index ends at the last date: the note is not taken for a date, no date is lost, and a call gives the table above the note exactly.", "quantifier": "every sheet, any length, every style of composed quarters, months, years and semesters, or dates stored as such, one or several columns, with or without missings; every note without digits (and, below quarters and semesters, without I, V or parentheses)", "why_tests_cant": "Whether a text is mistaken for a date depends on every grammar of the pool, on the parser chosen before and on the last date; no set of literal notes covers them.", "anchors": ["xlseries/strategies/clean/time_index.py: _clean_time_index", "xlseries/strategies/clean/time_index.py: _parse_time", "xlseries/strategies/clean/parse_time.py: BaseComposedQuarter", "xlseries/strategies/clean/parse_time.py: BaseComposedMonth"]}
{"id": "C66", "title": "Every number is dated with the date in its row", "statement": "In a returned frame, every number of a series comes from a row of the series (a column if it is horizontal) and carries the date that stands in that row of the time index (time_alignment rows away); the rows are different and in order.", "quantifier": "every sheet and parameters of a successful attempt, single or several frequencies, vertical or horizontal, with and without missings, continuous or not, any number of rows", "why_tests_cant": "The dates of the answer are not those of the cells but computed again from the first and the last one; that both agree depends on all the dates in between, the frequency and the rows left out.", "anchors": ["xlseries/strategies/get/period_range.py: BaseGetPeriodRanges", "xlseries/strategies/get/data.py: BaseSingleFrequency", "xlseries/strategies/strategies.py: _get_data"]}
{"id": "C67", "title": "A table of several frequencies gives one frame per frequency, exactly", "statement": "A call for a table whose rows (or columns) go round the letters of a frequency such as QQQQA, the dates of each letter being consecutive first dates of its periods, returns one frame per letter in order of appearance; each frame has the dates of its letter, the names of all the series, and beside every date the value in its row.", "quantifier": "every workbook, sheet, position of the table, number of letters (two or more, in any order and repetition), of cycles and of series, vertical or horizontal, with names given or in the headers, with or without markers of missing values, with the end given, at the end of the sheet or before blanks; also stopping inside a cycle, in a row after one whole cycle and in a column when the last cycle has every letter", "why_tests_cant": "The letters of the values and those of the dates are worked out by different code, the first from the number of values kept and the second from the first and last cells of the index; they agree only if every count is right for every number of letters and cycles.", "anchors": ["xlseries/strategies/get/period_range.py: BaseGetPeriodRanges", "xlseries/strategies/get/data.py: BaseMultiFrequency", "xlseries/strategies/clean/time_index.py: BaseCleanTiStrategy", "xlseries/strategies/strategies.py: _get_data"]}
{"id": "C68", "title": "Two Parameters are equal exactly when every parameter has equal values in both", "statement": "Comparing two Parameters with == gives True exactly when each of the parameters has equal values in both: equal numbers whatever their types, equal texts and dates, lists of equal elements, dictionaries with equal values for the same keys. The comparison does not depend on the order of the two, two Parameters equal to a third are equal, and an object is equal to a copy of itself exactly when no NaN is in its values.", "quantifier": "every pair (and triple) of Parameters objects, with any values, lists and dictionaries nested to any depth", "why_tests_cant": "The comparison goes over nested values of mixed types; that it is symmetric and transitive for bool, int and float together, at any depth, is not a matter of cases.", "anchors": ["xlseries/strategies/discover/parameters.py: Parameters.__eq__"]}
{"id": "C69", "title": "Serialized frames are read from the file meant by the path", "statement": "Loading serialized frames from a path reads the file of that path when it has one of the extensions .xlsx, .csv and .json, and otherwise the file of that name with the first of the three extensions there is one with; it raises NoSerializedDataFrameFound when there is none. The answer has the frames of the sheets of a workbook in order, the frame of a text file, or those of the files of that format in the directory of that name.", "quantifier": "every path, every state of the disk and every reader of files", "why_tests_cant": "Depends on the disk and on the path; the tests only have the files of the cases.", "anchors": ["xlseries/utils/data_frame.py: get_data_frames, get_data_frame, _parse_path_and_extension, _get_file_name_extension"]}
{"id": "C70", "title": "Every workbook of a directory is converted, and the current directory kept", "statement": "Converting a directory writes the frame of each workbook to a json and a csv file of its name, in order, and leaves the current directory as it was.", "quantifier": "every directory, any number of workbooks, each of any number of sheets", "why_tests_cant": "Any number of workbooks of any number of sheets.", "anchors": ["xlseries/utils/data_frame.py: dfs_to_json_and_csv"]}
{"id": "C71", "title": "The directory of a package is the nearest one above the path", "statement": "The directory of a package is the nearest directory strictly above the absolute path with the name of the package; without one the calls never end (RecursionError). For a relative path it is the first entry of sys.path whose last name is that of the package, and PackageDirNotFound is raised exactly when there is none. Different positive case numbers have different paths.", "quantifier": "every package name, every absolute path of any depth, every sys.path", "why_tests_cant": "Recursion on paths of any depth.", "anchors": ["xlseries/utils/path_finders.py: get_package_dir, get_param_cases_path, get_orig_cases_path, get_exp_cases_path, get_screenshot_cases_path"]}
{"id": "C72", "title": "Several tables on a sheet, each with its own dates", "statement": "When every parameter is given for every series, and each series has its own time header, first row, frequency, layout, markers and time_alignment, a call answers with exactly one column per series: the value of the row data_starts + k is paired with the date time_alignment rows away, series with the same dates are columns of the same frame, in order, and the others start a new frame. This holds whether the end of the data is given, or found by the blank below the dates.", "quantifier": "every workbook, any number of series and tables, of any length and frequency, every time_alignment, with and without preserving the workbook", "why_tests_cant": "Any number of tables of any length, with any mixture of settings; the tests have four sheets with two tables.", "anchors": ["xlseries/xlseries.py: XlSeries.get_data_frames", "xlseries/strategies/strategies.py: ParameterDiscovery._get_data, _clean_data", "xlseries/strategies/clean/time_index.py: BaseCleanTiStrategy.clean_time_index", "xlseries/strategies/get/data.py: BaseGetDataStrategy.get_data"]}
{"id": "C73", "title": "A table with its time index in several columns is scraped whole", "statement": "When the time header is given as several cells (a list, or a range such as A1-B1) and every row of the table says the next date when its cells in those columns are put together (a year in A and a quarter in B, with the year left out where it repeats), a call answers one data frame: its index are these dates, its columns are the names of the headers, and its values are the numbers beside each date, with missing values where the markers are. The end of the data may be given, or be where the columns stop saying anything.", "quantifier": "every workbook, any number of headers and of columns of the index, any length, every period grammar, layout and set of markers, with and without preserving the workbook", "why_tests_cant": "Any number of columns and rows in any style of date; the tests have one sheet with a time index in two columns.", "anchors": ["xlseries/xlseries.py: XlSeries.get_data_frames", "xlseries/strategies/discover/parameters.py: Parameters._guess_time_multicolumn, _apply_to_all_time_header", "xlseries/strategies/clean/time_index.py: BaseCleanTiStrategy.clean_time_index, BaseMultipleColumns", "xlseries/strategies/strategies.py: ParameterDiscovery._get_data, _clean_data"]}
{"id": "C74", "title": "The compact representation gives the object back", "statement": "The dictionary a Parameters object is printed as holds, for each parameter, the value all its series have in common or the list of the values of the series; it leaves out the parameters that are missing, the optional ones that are None for all the series and the ones that are at their default. Parameters built from that dictionary are equal to the object.", "quantifier": "every Parameters object, any number of series, any values", "why_tests_cant": "Any combination of parameters equal or different across any number of series; the tests print a few objects.", "anchors": ["xlseries/strategies/discover/parameters.py: Parameters.compact_repr, __repr__, _is_optional, _is_default, _is_repeated, _is_missing"]}
{"id": "C75", "title": "Removing what is not critical keeps exactly the critical", "statement": "After remove_non_critical, the critical parameters, the ones with a default and the guessed one are what they were, the optional ones are None for every series, and the others are missing; unless the series differ in them and differences are to be kept, and then they are what they were. The number of series does not change. When a value and a list are mixed in one parameter, with differences kept, it raises TypeError and removes nothing.", "quantifier": "every Parameters object with its headers, any number of series, both values of differents", "why_tests_cant": "Any number of series and any values; the tests remove the parameters of their cases.", "anchors": ["xlseries/strategies/discover/parameters.py: Parameters.remove_non_critical, get_non_critical_params, remove, _non_critical, _no_differences, __setitem__"]}
{"id": "C76", "title": "The row or column cells share, and the cells between two", "statement": "common_row_or_column gives the number of the row all the cells are in, or, only if they share no row, the number of the column they share; it raises if they share neither or are fewer than two. xl_coordinates_range gives every cell of the rectangle between two cells, once, row by row, under its usual name, and only the start when there is no end.", "quantifier": "every list of cell names, every pair of cell names, any case, up to column ZZZ", "why_tests_cant": "Any cells in any number and order; the tests try three lists and four ranges.", "anchors": ["xlseries/utils/xl_methods.py: common_row_or_column, xl_coordinates_range"]}
{"id": "C77", "title": "Checking a result against the expected frames of a case", "statement": "A result passes the check of a case exactly when it has the expected frames, each passing the comparison with the one expected in its place. Different cases have different files, and the parameters of a case are those of its json file; the critical ones are what is left of them after removing what is not critical.", "quantifier": "every list of frames and every list of expected ones, every case number, special version and content of the files", "why_tests_cant": "Any number of frames; the tests check the results of their own cases only.", "anchors": ["xlseries/utils/case_loaders.py: check_case_exp_result, load_parameters_case, load_critical_parameters_case, _gen_filename"]}
{"id": "C78", "title": "A table of years and quarters with a written time index gives one frame for the years and one for the quarters", "statement": "When the time index says its years and quarters in words (\"2008 Year *\", \"Quarter I *\", \"II * (2)\", ...), years before or after their quarters, a call with time_composed and the frequency AQQQQ or QQQQA returns one frame of years and one of quarters, in the order in which they appear, with the first day of each period and the value beside it.", "quantifier": "every sheet, table of any length stopping anywhere the code tolerates, years, texts in the written style, header cells, values, other parameters and workbook", "why_tests_cant": "Any number of rows and any words and notes around the years and quarters; the tests have two tables of this kind.", "anchors": ["xlseries/strategies/clean/parse_time.py: ParseComposedYearQuarter1, ParseComposedQuarterYear1", "xlseries/strategies/clean/time_index.py: BaseCleanTiStrategy.clean_time_index, _correct_progression", "xlseries/strategies/get/period_range.py: GetPeriodRangesMultifrequency", "xlseries/xlseries.py: XlSeries.get_data_frames"]}
{"id": "C79", "title": "The strategies that are tried are those of the module, in alphabetical order, and the first one that accepts is used", "statement": "The strategies of a module are its classes that are neither exceptions, nor Parameters, nor named Base...; each is tried once, in alphabetical order of the names, whatever the order of the classes in the file and whatever else the module has. The time of a cell is read by the first one in that order that accepts it (unless the one used for the cell before reads it), and that one is kept for the next cell.", "quantifier": "every module namespace; every time value, parameters and values around it", "why_tests_cant": "Any set of classes in any order, and any value: the choice among overlapping grammars depends on it.", "anchors": ["xlseries/utils/strategies_helpers.py: get_strategies, get_strategies_names, get_parent_module_classes", "xlseries/strategies/clean/parse_time.py: get_strategies", "xlseries/strategies/clean/time_index.py: BaseCleanTiStrategy._parse_time, get_strategies", "xlseries/strategies/get/data.py: get_strategies", "xlseries/strategies/get/period_range.py: get_strategies", "xlseries/strategies/strategies.py: get_strategies"]}
{"id": "C80", "title": "The significant figures of a series are the decimals of the number that has the most", "statement": "significant_figures of a series is the largest number of decimals one of its numbers shows (zeros at the end aside), none at least; nan is left out, and neither the order of the numbers nor repetitions matter. Changing the sign of the numbers does not change it, and truncating a number to the decimals it has leaves it as it is.", "quantifier": "every list of floats", "why_tests_cant": "Any numbers in any order; rounding errors show up for some numbers only.", "anchors": ["xlseries/utils/float_handlers.py: significant_figures, infer_decimals, truncate"]}
{"id": "C81", "title": "Cells that are not part of the tables make no difference", "statement": "The frames a call hands back, or the exception it raises, depend only on the Parameters object and on the cells that count for it: the headers and the cells they are composed with, the values of each series from data_starts to data_ends along the row or column of its header, and its dates along the row or column of its time header, from where the offset of the dates leads to one place after the end (all along it for a frequency of several letters). Two sheets, in any two workbooks and asked for by any names, that hold the same there give the same answer, whatever notes, titles or other tables are in the rest of them, provided the sheets have the same size, or data_ends is given for every series and every frequency is a single letter. The size does count otherwise: a note outside a table in rows, beyond its last column, makes a call fail that succeeds without it.", "quantifier": "all pairs of workbooks, sheets, names asked for, Parameters objects (complete or not), parsers of dates and names, with preserve_wb_obj on or off, safe mode on or off", "why_tests_cant": "It relates two runs on sheets that differ in arbitrarily many cells; no set of examples covers every place a note can be in, nor every combination that is tried for the missing parameters.", "anchors": ["xlseries/xlseries.py: XlSeries.get_data_frames", "xlseries/strategies/strategies.py: BaseXlSeriesScraper._get_data_frames, ParameterDiscovery", "xlseries/strategies/clean/time_index.py: BaseCleanTiStrategy", "xlseries/strategies/get/data.py: BaseGetDataStrategy", "xlseries/strategies/get/period_range.py"]}
{"id": "C82", "title": "A table further down the sheet gives the same answer", "statement": "Putting rows above the tables of a sheet changes nothing but where they are: with d rows more on top, holding anything, and a Parameters object whose coordinates (headers, composed headers, time headers) are d rows lower, and whose data_starts and data_ends are d larger when the series are in columns, the call hands back the same frames or raises the same exception as before. It does not matter how the workbooks or sheets are called, whether the parameters are complete, nor whether safe mode or preserve_wb_obj are on. Series in columns have to start on row 2 or below, which the constructor checks for the first one only: a second series that starts on row 1 with dates one row above fails before the move and not after it.", "quantifier": "all numbers of rows, all sheets and all contents of the new rows, all Parameters objects with series in columns or in rows, canonical coordinates and valid offsets (complete or not), all parsers of dates and names", "why_tests_cant": "It relates two runs on sheets of any size moved by any number of rows; the rows are also compared, added to and searched backwards from on the way, so that a slip anywhere would only show at some positions.", "anchors": ["xlseries/xlseries.py: XlSeries.get_data_frames", "xlseries/strategies/strategies.py: BaseXlSeriesScraper, ParameterDiscovery", "xlseries/strategies/clean/time_index.py: BaseCleanTiStrategy", "xlseries/strategies/get/data.py: BaseGetDataStrategy", "xlseries/strategies/get/period_range.py", "xlseries/utils/xl_methods.py"]}
{"id": "C83", "title": "Leaving series out, or asking for them in another order, changes nothing in the others", "statement": "When several series share one time index of one frequency, that is, everything in their parameters but the headers, their names and contexts is the same, a call for any of them in any order gives, whenever the call for all of them succeeds, a frame with the same index whose columns are exactly those columns in that order, named after the same headers. And when the call for all of them raises an exception, the call for one of them alone raises the same one, or (daily data) two of them alone have different indexes. The condition is needed: the index is cleaned once for each time header with the parameters of the first series that has it, so a series whose own parameters say something else of the index fails when asked for alone or first and not when it is second.", "quantifier": "all workbooks, sheets, parsers, Parameters objects with any number of series that share the index, and all choices of some of the series in any order, also repeated; single and several time columns, preserve_wb_obj and safe mode on or off", "why_tests_cant": "It relates the runs for every subset and order of the series of a sheet of any size; tests only ever ask for one list of headers.", "anchors": ["xlseries/xlseries.py: XlSeries.get_data_frames", "xlseries/strategies/strategies.py: BaseXlSeriesScraper, ParameterDiscovery, _clean_data, _get_data, _add_name", "xlseries/strategies/clean/time_index.py: BaseCleanTiStrategy", "xlseries/strategies/get/data.py: BaseGetDataStrategy"]}
{"id": "C84", "title": "The order and the places of the columns do not matter", "statement": "Let two sheets hold the same columns of dates and of values at different places, in any order and with any other columns before, between and after them (rows, for series in rows), and let two Parameters objects say the same but for the coordinates of the headers, each of which names the cell that the other one's went to. Then get_data_frames hands back the same frames, or raises the same exception, for both.", "quantifier": "all workbooks, parsers, one to one correspondences between the used columns of two sheets, and Parameters objects, complete or not, whose series are all in columns or all in rows; composed headers and several time columns included; safe mode and preserve_wb_obj on or off", "why_tests_cant": "It relates the runs on every pair of arrangements of a sheet, for every size; tests read each file as it is.", "anchors": ["xlseries/xlseries.py: XlSeries.get_data_frames", "xlseries/strategies/strategies.py: BaseXlSeriesScraper, ParameterDiscovery", "xlseries/strategies/clean/time_index.py: BaseCleanTiStrategy", "xlseries/strategies/get/data.py: BaseGetDataStrategy", "xlseries/strategies/discover/parameters.py: Parameters"]}
{"id": "C85", "title": "Calling again on the workbook that a call cleaned gives the same", "statement": "Let get_data_frames succeed with preserve_wb_obj=False, and leave a date in every cell of the time index that was not empty. Then any later call with the same parameters on the sheet it left hands back the same frames, and changes no cell of the sheet: the texts and mistakes it turned into dates are read as those dates. Full claim: this holds after every successful call.", "quantifier": "all workbooks, parsers, contents of the sheet and complete Parameters objects of one or more series that share a time index; sheets with the series in columns or in rows; safe mode on or off in either call", "why_tests_cant": "It is about two calls in a row over every content of the sheet; the tests make one call on each workbook they load.", "anchors": ["xlseries/xlseries.py: XlSeries.get_data_frames", "xlseries/strategies/strategies.py: BaseXlSeriesScraper._get_series, _clean_ti", "xlseries/strategies/clean/time_index.py: BaseCleanTiStrategy._clean_time_index, _correct_progression, _estimate_end"]}
{"id": "C86", "title": "The names, the context and the composed headers change only the names of the columns", "statement": "Let two Parameters objects for the same series differ only in series_names, context and composed_headers_coord. When get_data_frames succeeds with both, it hands back as many frames, with the same dates and the same values in the same columns. When the second object gives every series a name, the call succeeds with it whenever it does with the first, and its columns are called by those names (with a number after the ones that repeat).", "quantifier": "all workbooks, sheets and parsers; all pairs of complete objects of any number of series, in rows and columns, with one or more time indexes, of one column or several, and of any frequencies; safe mode and preserve_wb_obj on or off", "why_tests_cant": "It compares the calls on every sheet for every choice of names; tests have one set of names for each file.", "anchors": ["xlseries/xlseries.py: XlSeries.get_data_frames", "xlseries/strategies/get/data.py: BaseGetDataStrategy._get_name, _get_values", "xlseries/strategies/strategies.py: BaseXlSeriesScraper._get_data, _add_name", "xlseries/strategies/discover/parameters.py: Parameters"]}
{"id": "C87", "title": "Another number in a cell of the values changes that value, and nothing else", "statement": "Let two sheets of the same size differ only in one cell, that holds a number in both and is neither a header nor in the row or column of a time index. For the same parameters both calls of get_data_frames raise the same exception, or both succeed: with as many frames, the same dates, the same column names and the same values, but for one value in the columns of the series whose header is in the row or column of the cell. That value is the number in the cell, or NaN when it is a mark for missing values. When the cell is on no series the frames are the same.", "quantifier": "all workbooks, sheets and parsers; all cells and pairs of numbers; all complete objects of any number of series, in rows and columns, with one or more time indexes, of one column or several, and of any frequencies; safe mode and preserve_wb_obj on or off", "why_tests_cant": "It compares every two sheets that differ in one number; tests read each file once.", "anchors": ["xlseries/xlseries.py: XlSeries.get_data_frames", "xlseries/strategies/get/data.py: BaseGetDataStrategy.get_data, _get_values, BaseContinuous._handle_new_value, BaseNonContinuous._handle_new_value, BaseMultiFrequency._get_frequency, BaseSingleFrequency._fill_implicit_missings", "xlseries/strategies/strategies.py: BaseXlSeriesScraper._get_data"]}
{"id": "C88", "title": "An earlier end of the data gives the beginning of the same columns", "statement": "Let two complete sets of parameters for series that share one time index of one frequency differ only in where the data ends, at m or at a later place m'. Let the headers not lie after m and the dates not lie after their values, or just after them in a table without gaps. If both calls of get_data_frames succeed then each gives one frame, the column names are the same, and every column of the first frame is the beginning of the same column of the second one. The dates of the first are the beginning of the dates of the second, of the same frequency; only a daily index may turn into one of working days or back.", "quantifier": "all workbooks, sheets and parsers; all complete objects of any number of series, in rows and columns, with a time index of one column or several, of any frequency of one letter, continuous or not; all ends m <= m'; safe mode and preserve_wb_obj on or off", "why_tests_cant": "It compares the results of every two ends of every table; tests have one end for each file.", "anchors": ["xlseries/xlseries.py: XlSeries.get_data_frames", "xlseries/strategies/clean/time_index.py: BaseCleanTiStrategy.clean_time_index, _clean_time_index", "xlseries/strategies/get/data.py: BaseGetDataStrategy.get_data, _get_values, BaseSingleFrequency._fill_implicit_missings", "xlseries/strategies/get/period_range.py: BaseGetPeriodRangesStrategy.get_period_ranges", "xlseries/strategies/strategies.py: BaseXlSeriesScraper._get_data"]}
{"id": "C89", "title": "Leaving parameters out is the same as writing down values for them that work", "statement": "Take parameters of a table that leave out some of the parameters the scraper can search for. If the call of get_data_frames with the defaults of these parameters written down succeeds, the call that leaves them out succeeds with the same frames. Whatever the call that leaves them out gives, some valid values exist for them that give the same when they are written down. If the call that leaves them out raises an exception, then every call with valid values written down raises one too.", "quantifier": "all workbooks, sheets and parsers; all parameter objects for any number of series that leave out any of the searchable parameters; all valid values written down for them; given as an object, a dictionary or a path; the written down call in safe mode or not; preserve_wb_obj on or off", "why_tests_cant": "It compares a search over all the combinations of the missing parameters with every call that writes one of them down; tests have a few files for which the first combination works.", "anchors": ["xlseries/xlseries.py: XlSeries.get_data_frames", "xlseries/strategies/strategies.py: BaseXlSeriesScraper.get_data_frames, _discover_parameters, _get_data_frames", "xlseries/strategies/discover/parameters.py: Parameters.get_missings, VALID_VALUES, DEFAULT_VALUES"]}
{"id": "C90", "title": "The templates of the parameters describe the table they say", "statement": "The template of the critical parameters can be used as it is: on a clean monthly table with the dates in the first column from the second row on and the series under B1, C1, E1, F1 and G1, get_data_frames gives one frame with exactly those names, months and numbers. On any workbook on which the complete template gives frames, the critical one gives the same frames.", "quantifier": "all workbooks and stores; all such tables of any length, names and numbers; for the second part all workbooks without restriction on their contents; safe mode of the complete call and preserve_wb_obj on or off", "why_tests_cant": "The templates are printed for the user to edit; tests only compare them with the same constants, not with what they read from every workbook.", "anchors": ["xlseries/xlseries.py: XlSeries.critical_params_template, complete_params_template", "xlseries/strategies/discover/parameters.py: Parameters.get_critical_params_template, get_complete_params_template, CRITICAL, DEFAULT_VALUES"]}
{"id": "C91", "title": "Values and marks that are written in another way and read the same give the same frames", "statement": "Take two sheets of the same size with the same headers and the same time indexes, and two complete sets of parameters that differ at most in the marks for missing values. Let the same be read from every cell of the values of a series in both: nan for a mark, float() of anything else, be it an integer, a float or a text. Then get_data_frames gives the same frames for both or raises the same exception. In particular, to use another text for the missing values, in the sheet and in the parameters, changes nothing.", "quantifier": "all workbooks, sheets and parsers; all complete objects for any number of series, in rows and columns, continuous or not, of any frequency; all ways to write each value; all marks that are texts or the empty cell; any contents of the cells that are neither labels nor values; safe mode and preserve_wb_obj on or off", "why_tests_cant": "It relates all the sheets that say the same; tests have each table written in one way.", "anchors": ["xlseries/xlseries.py: XlSeries.get_data_frames", "xlseries/strategies/get/data.py: BaseGetDataStrategy._get_values, BaseContinuous._handle_new_value, BaseNonContinuous._handle_new_value, BaseSingleFrequency._fill_implicit_missings", "xlseries/strategies/clean/time_index.py: BaseCleanTiStrategy.clean_time_index, _correct_progression", "xlseries/strategies/discover/parameters.py: Parameters.__getitem__"]}
{"id": "C92", "title": "Safe mode gives the plain answer, or a list that starts with it", "statement": "For parameters that leave out some that can be searched for, whatever get_data_frames gives in safe mode is the answer that it gives without safe mode, or a list of several answers whose first one is that answer. Each of the others is what the call gives when some valid values are written down for the parameters left out. If the call without safe mode raises an exception, so does the call in safe mode. When no parameter is left out both give the same, or raise the same exception.", "quantifier": "all workbooks, sheets and parsers; all Parameters for any number of series, with any of the parameters that can be searched for left out; preserve_wb_obj on or off", "why_tests_cant": "It relates two runs of the search over all the combinations of the parameters left out, for every sheet; tests call safe mode on a few workbooks.", "anchors": ["xlseries/xlseries.py: XlSeries.get_data_frames", "xlseries/strategies/strategies.py: ParameterDiscovery._get_data_frames"]}
{"id": "C93", "title": "The values of the parameters left out are tried by the likeliness of the defaults", "statement": "The combinations of values for the parameters left out are tried as nested loops, with the default of each parameter first. The loops follow the list of the parameters by the likeliness of their defaults: the parameter whose default is the most likely is changed last, and the one whose default is the least likely is changed first.", "quantifier": "all Parameters objects for any number of series, with any of the parameters that can be searched for left out", "why_tests_cant": "Without safe mode the first combination that works decides the answer, so the order matters for every set of parameters left out; tests look at the combinations of a few made up ones.", "anchors": ["xlseries/strategies/strategies.py: ParameterDiscovery._param_combinations_generator, ParameterDiscovery._generate_attempts", "xlseries/strategies/discover/parameters.py: Parameters.LIKELINESS_ORDER, Parameters.DEFAULT_VALUES, Parameters.VALID_VALUES"]}
