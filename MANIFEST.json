{
 "claims": [
  {
   "property": "C01",
   "status": "proved",
   "theorems": [
    "C01_shift_exact"
   ],
   "note": "all valid periods, all integers (no int overflow)"
  },
  {
   "property": "C02",
   "status": "proved",
   "theorems": [
    "C02_shift_compose",
    "C02_shift_zero"
   ],
   "note": ""
  },
  {
   "property": "C03",
   "status": "proved",
   "theorems": [
    "C03_difference_laws",
    "C03_difference_rejects"
   ],
   "note": ""
  },
  {
   "property": "C04",
   "status": "proved",
   "theorems": [
    "C04_text_roundtrip",
    "C04_text_injective"
   ],
   "note": "years 1000 to 9999"
  },
  {
   "property": "C05",
   "status": "partial",
   "theorems": [
    "C05_accepted_is_valid_refuted",
    "C05_accepted_partial"
   ],
   "note": "statement is false of the code: '2000Y0' and '2000Q-3' are accepted; exact characterisation of what is missing proved"
  },
  {
   "property": "C06",
   "status": "proved",
   "theorems": [
    "C06_positions",
    "C06_other_periodicity",
    "C06_list"
   ],
   "note": "samples whose count fits 16 bits"
  },
  {
   "property": "C07",
   "status": "proved",
   "theorems": [
    "C07_intersection"
   ],
   "note": "samples whose count fits 16 bits"
  },
  {
   "property": "C08",
   "status": "partial",
   "theorems": [
    "C08_count_refuted",
    "C08_count_partial",
    "C08_rejects"
   ],
   "note": "statement is false beyond 32767 periods (16-bit counter); proved below"
  },
  {
   "property": "C09",
   "status": "proved",
   "theorems": [
    "C09_same_key_iff",
    "C09_key_normal_form"
   ],
   "note": "key normalisation, full characterisation of equal keys"
  },
  {
   "property": "C10",
   "status": "partial",
   "theorems": [
    "C10_accepted_iff",
    "C10_lexed_refuted",
    "C10_lexed_partial"
   ],
   "note": "refuted in general (names with #, names without a letter, scalars named like a keyword); proved for the other names"
  },
  {
   "property": "C100",
   "status": "partial",
   "theorems": [
    "C100_tables_partial",
    "C100_unchanged_partial",
    "C100_lines_settle",
    "C100_scatter_refuted",
    "C100_empty_formula_refuted",
    "C100_quotes_refuted",
    "C100_title_refuted",
    "C100_formula_quote_refuted",
    "C100_header_refuted",
    "C100_limit_refuted",
    "C100_name_refuted",
    "C100_unclosed_refuted"
   ],
   "note": "Holds for tables whose formulas hold neither quote nor backslash and compile, whose texts are plain and neither begin nor end with a quote, whose header numbers are from 0 to 127 and whose limits are finite: all fields come back but the fonts of empty cells, scatter graphs, decimals of the limits after the sixth and three fields. The refuted theorems give what fails beyond that: scatter graphs become lines, empty formulas become texts, outer quotes vanish, a formula in a title is a null pointer at the load, negative header numbers are lost, names that are keywords are not loaded, a file that ends within a table is read for ever."
  },
  {
   "property": "C101",
   "status": "partial",
   "theorems": [
    "C101_csv_partial",
    "C101_rotated_partial",
    "C101_transposed_partial",
    "C101_dif_partial",
    "C101_value",
    "C101_precision_refuted",
    "C101_comment_refuted",
    "C101_tab_refuted",
    "C101_tuples_refuted",
    "C101_dif_comment_refuted",
    "C101_workspace_refuted"
   ],
   "note": "CSV, rotated CSV and DIF: the cells of the file, read by a separate specification, are exactly the new names, comments and values of the kept variables (for texts without the separator and line feeds, printable separators); a cell holds a number within 1e-7 of the value. TSP and WKS formats are not modelled. Refuted: 8 digits merge different values; a comment with the separator moves the values; a tab becomes a blank; the DIF header counts the variables left out; a comment of two lines breaks a DIF file; without a file of variables a null sample is accessed instead of exporting the workspace."
  },
  {
   "property": "C102",
   "status": "partial",
   "theorems": [
    "C102_texts",
    "C102_equations_partial",
    "C102_block",
    "C102_missing_in_block_refuted",
    "C102_out_of_block_refuted",
    "C102_two_blocks_refuted",
    "C102_atomic_refuted",
    "C102_command_refuted",
    "C102_other_tests_refuted"
   ],
   "note": "For every numerical estimation (a parameter): texts and other equations never change, every named equation holds the results of an estimation of the call at its position (when its block names it), and for one name the whole block, the scalars and the series are described. Missing: databases other than the workspaces. Refuted: a block naming a missing equation frees memory twice; an equation out of its own block loses its tests and is not estimated; two blocks overwrite e0_...; a failure leaves partial results; the report command drops comment, block and instruments of the other equations of the block; 9 of the 20 stored tests are not initialised."
  },
  {
   "property": "C103",
   "status": "partial",
   "theorems": [
    "C103_result",
    "C103_lags",
    "C103_frame",
    "C103_leftovers",
    "C103_neutral_refuted",
    "C103_t_test_refuted",
    "C103_order_refuted",
    "C103_drift_refuted"
   ],
   "note": "Proved for every estimation: sample, formula, starting values, results, frame. Refuted: the test is not neutral (series _DF stays, the user's equation _DF and scalars df_, df1... are lost), the t-test is not written when the standard error is zero, order 54 overflows the buffer of the formula, a drift of -1 overflows the results. Missing: the numerical estimation and the printing."
  },
  {
   "property": "C104",
   "status": "partial",
   "theorems": [
    "C104_run",
    "C104_saved",
    "C104_read",
    "C104_norm_refuted",
    "C104_sample_refuted",
    "C104_no_simulation_refuted",
    "C104_name_refuted"
   ],
   "note": "Proved for the standard simulation (not the one by connex components, SCC) and accepted names. Refuted by counterexamples: the norm of a failed period can be below the threshold (a variable unavailable in the first pass); after a change of the sample of the workspace the diagnostics of other periods are given, or read after the end of the arrays; saving before any simulation erases the variable; a name with a blank or too long erases another variable and fails. Elapsed times are not modelled."
  },
  {
   "property": "C105",
   "status": "partial",
   "theorems": [
    "C105_one_period",
    "C105_read_partial",
    "C105_rules_partial",
    "C105_exported_refuted",
    "C105_two_periods_refuted",
    "C105_text_value_refuted",
    "C105_empty_tuple_refuted",
    "C105_not_a_table_refuted"
   ],
   "note": "What is imported always has a single period. A table with one period, accepted names and non-negative numbers of at most 60 characters is read exactly; with rules and rows in any order, each variable has the value of the last row renamed to it. Partial: negative numbers are not covered. Refuted: no exported file can be imported (exception); tables with two periods or more, texts in the place of values and files that are not tables lead to the use of a null pointer; an empty tuple silently ends the import."
  },
  {
   "property": "C106",
   "status": "partial",
   "theorems": [
    "C106_set",
    "C106_refused",
    "C106_sort",
    "C106_unknown_sort_refuted",
    "C106_unknown_start_refuted",
    "C106_overflow_refuted",
    "C106_other_sort_refuted"
   ],
   "note": "The documented arguments are set exactly and read back; refusals change nothing; whatever the text the sort is one of the three. Refuted: unknown words are accepted (sort: Connex; starting values: none computed). Also refuted: numbers that an int cannot hold are undefined; for a sort outside the three values, the name shown is not the sort made."
  },
  {
   "property": "C107",
   "status": "partial",
   "theorems": [
    "C107_default_partial",
    "C107_same",
    "C107_rules_partial",
    "C107_number_refuted",
    "C107_number_text_refuted",
    "C107_refused_name_refuted"
   ],
   "note": "Saved comments are all imported, on one line and without their last blanks; those on one line come back as they are (C107_same); with rules, each name holds the text of the last comment renamed to it. Partial: names with a sharp and texts with a caret before a letter are excluded (C66). Refuted: after a number in the place of a name the rest of the file is silently lost, and the same wrong name between quotes makes the whole import fail."
  },
  {
   "property": "C108",
   "status": "partial",
   "theorems": [
    "C108_format",
    "C108_comment_formats",
    "C108_unknown_refuted",
    "C108_comments",
    "C108_comments_format_refuted",
    "C108_variables",
    "C108_bounds",
    "C108_few",
    "C108_failed",
    "C108_unsaved_refuted"
   ],
   "note": "The documented formats are selected by their first letter; the commands read with what is asked and write what is read; wrong bounds or too few arguments give -1 and nothing is written; any other code than 0 means that nothing was written. Refuted: an unknown format is taken as ASCII and Bistel cannot be asked; four documented formats never import comments; the code is 0 when the output file cannot be written. The readers and the writing are parameters."
  },
  {
   "property": "C11",
   "status": "partial",
   "theorems": [
    "C11_workspaces_are_maps_partial",
    "C11_errors_change_nothing",
    "C11_refuted"
   ],
   "note": "Full refinement to a finite map for all histories without subsets, with steady letter case for comments and no self merge / self duplicate in another case; C11_refuted shows what breaks otherwise. Error part proved for every history and every call on single objects."
  },
  {
   "property": "C12",
   "status": "proved",
   "theorems": [
    "C12_positions"
   ],
   "note": "All reachable databases, subsets and copies included."
  },
  {
   "property": "C13",
   "status": "partial",
   "theorems": [
    "C13_subset_agrees_partial",
    "C13_subset_made",
    "C13_refuted"
   ],
   "note": "Same address in subset and parent for all histories without overwriting rename and with steady letter case; overwriting rename, cleared subsets and mixed case comments refute the full statement."
  },
  {
   "property": "C14",
   "status": "proved",
   "theorems": [
    "C14_copy_isolated",
    "C14_copy_shows_selection"
   ],
   "note": "Isolation holds for every history; that the copy shows the selected objects needs steady letter case of comments and no overwriting rename before."
  },
  {
   "property": "C15",
   "status": "partial",
   "theorems": [
    "C15_rename_moves",
    "C15_refuted"
   ],
   "note": "Exact effect on the parent and all its known subsets, with and without overwrite, steady letter case; refuted for comments in another case and through a cleared subset."
  },
  {
   "property": "C16",
   "status": "partial",
   "theorems": [
    "C16_remove_deletes",
    "C16_refuted"
   ],
   "note": "Exact effect, steady letter case; refuted for comments in another case and through a cleared subset."
  },
  {
   "property": "C17",
   "status": "partial",
   "theorems": [
    "C17_comment_lookup_partial",
    "C17_refuted"
   ],
   "note": "Lookup is case-insensitive; storing, removing and renaming are not."
  },
  {
   "property": "C18",
   "status": "partial",
   "theorems": [
    "C18_merge_partial",
    "C18_refuted"
   ],
   "note": "All databases that are not relatives; merging a workspace with its subset or itself is refuted."
  },
  {
   "property": "C19",
   "status": "partial",
   "theorems": [
    "C19_one_value_per_period_partial",
    "C19_refuted"
   ],
   "note": "Proved for histories without clear of a subset, without overwriting rename while subsets exist, with samples of at most 32767 periods. C19_refuted shows that each of the first two restrictions is needed."
  },
  {
   "property": "C20",
   "status": "proved",
   "theorems": [
    "C20_sample_change_keeps_values",
    "C20_refusal_changes_nothing",
    "C20_samples",
    "C20_refuted"
   ],
   "note": "For samples of at most 32767 periods after careful histories; C20_refuted is the counterexample beyond 32767 periods (the C short wraps)."
  },
  {
   "property": "C21",
   "status": "proved",
   "theorems": [
    "C21_modes_are_inverse",
    "C21_other_values_unchanged"
   ],
   "note": "Exact rational arithmetic for the round trip; any arithmetic for the frame."
  },
  {
   "property": "C22",
   "status": "proved",
   "theorems": [
    "C22_init_value",
    "C22_extrapolate"
   ],
   "note": ""
  },
  {
   "property": "C23",
   "status": "proved",
   "theorems": [
    "C23_packs_are_read_back",
    "C23_depends_on_the_machine_refuted"
   ],
   "note": "Byte-level pack buffer for 4 and 8 byte longs, any sequence of additions, stale bytes of the global buffer arbitrary; total size below 2^31. The documented machine independence of packs is refuted."
  },
  {
   "property": "C24",
   "status": "partial",
   "theorems": [
    "C24_matches_the_language_partial",
    "C24_defined",
    "C24_name_patterns_partial",
    "C24_refuted"
   ],
   "note": "Full statement refuted (final '**', final '!' after '*', '**!', '&' at the end of the text reads outside). Proved for tame patterns, for any text; absence of undefined behaviour for patterns without '&'; name lists selected by filter_names (no @file, $list or quoted item, not for comments)."
  },
  {
   "property": "C25",
   "status": "proved",
   "theorems": [
    "C25_compile",
    "C25_unambiguous",
    "C25_evaluate"
   ],
   "note": "Text to value, for formulas of operators, signs, parentheses, suffixes and ordinary functions that propagate NA, within the field sizes of the byte code (fits, size). Floating point operations are parameters."
  },
  {
   "property": "C26",
   "status": "partial",
   "theorems": [
    "C26_history_refuted",
    "C26_after_successes_partial",
    "C26_reset_partial"
   ],
   "note": "False in general: a rejected formula leaves operators on the global stack. Proved after successful compilations."
  },
  {
   "property": "C27",
   "status": "partial",
   "theorems": [
    "C27_one_value_partial",
    "C27_refuted"
   ],
   "note": "Proved for steady formulas; false for lcount, which leaves its arguments on the stack."
  },
  {
   "property": "C28",
   "status": "partial",
   "theorems": [
    "C28_actual",
    "C28_refuted"
   ],
   "note": "False: if uses its third argument as condition and div0 divides the second argument by the first; C28_actual states what is computed."
  },
  {
   "property": "C29",
   "status": "proved",
   "theorems": [
    "C29_operator",
    "C29_function",
    "C29_function1"
   ],
   "note": "For operands that are steady; the converse (NA only from own arguments) is C47."
  },
  {
   "property": "C30",
   "status": "partial",
   "theorems": [
    "C30_lag_partial",
    "C30_refuted"
   ],
   "note": "Proved for expressions without t, i, absolute periods, window functions; false for window functions and t."
  },
  {
   "property": "C31",
   "status": "partial",
   "theorems": [
    "C31_variable",
    "C31_refuted"
   ],
   "note": "Proved when the lag fits in 16 bits; beyond, the stored lag wraps around."
  },
  {
   "property": "C32",
   "status": "partial",
   "theorems": [
    "C32_evaluate_partial",
    "C32_refuted"
   ],
   "note": "Proved for steady formulas; false when the argument of a time function ends with an unparenthesised function of several arguments or contains a function of several series."
  },
  {
   "property": "C33",
   "status": "proved",
   "theorems": [
    "C33_window",
    "C33_from_start"
   ],
   "note": "sum, prod, mean, vmax, vmin, lastobs, in steady formulas."
  },
  {
   "property": "C34",
   "status": "partial",
   "theorems": [
    "C34_undated_partial",
    "C34_refuted"
   ],
   "note": "False for lagged or dated series; proved when the series are neither lagged nor dated."
  },
  {
   "property": "C35",
   "status": "partial",
   "theorems": [
    "C35_tree_partial",
    "C35_value_partial",
    "C35_change_partial",
    "C35_several",
    "C35_none",
    "C35_reals",
    "C35_power_refuted",
    "C35_exp2_refuted",
    "C35_acos_refuted",
    "C35_garbled_refuted"
   ],
   "note": "Proved for equations whose variable is reached through + - * /, a power in base, ln, exp, signs, cos, sin, tan, d, dln, grt, r, operands that are functions of several arguments being in parentheses. False otherwise: A^X (log with its arguments exchanged), exp(X,2), acos, and operands cut in two (X + max(A,2))."
  },
  {
   "property": "C36",
   "status": "partial",
   "theorems": [
    "C36_outcome_partial",
    "C36_no_equal",
    "C36_exception_refuted",
    "C36_rejected_refuted",
    "C36_no_equal_value",
    "C36_unknown"
   ],
   "note": "Proved for members accepted by the compiler without sqrt or log. False: sqrt and log raise an exception; a member with a syntax error removes the last element of an empty vector."
  },
  {
   "property": "C37",
   "status": "partial",
   "theorems": [
    "C37_order_is_a_permutation_partial",
    "C37_given_order",
    "C37_linking_ends",
    "C37_named_twice_refuted",
    "C37_too_short_refuted"
   ],
   "note": "Proved for every model linked by a simulation or by the block computation, each sort option and number of passes. With SORT_NONE and an order given by the user the full statement is false of the code: a name given twice leaves out another equation, a list shorter than the model is read after its end."
  },
  {
   "property": "C38",
   "status": "proved",
   "theorems": [
    "C38_blocks_respect_dependencies"
   ],
   "note": "Stated by names on the equations of the model; SORT_CONNEX and SORT_BOTH."
  },
  {
   "property": "C39",
   "status": "partial",
   "theorems": [
    "C39_recursive_models_partial",
    "C39_coefficients_refuted"
   ],
   "note": "No equation is iterated in a model without simultaneity (proved); the prolog part of the statement is false of the code when equations have coefficients (their unfilled entries refer to equation 0) and is proved without coefficients."
  },
  {
   "property": "C40",
   "status": "partial",
   "theorems": [
    "C40_fixed_point_partial",
    "C40_passes_at_most_maximum",
    "C40_missing_values_refuted",
    "C40_overflow_refuted"
   ],
   "note": "Proved in exact arithmetic for thresholds below 10, any equations, numerical solutions, relaxations and initial values; the bound on the passes for any arithmetic. False for thresholds of 10 or more (missing values pass for a solution) and for infinities (NaN passes for no change)."
  },
  {
   "property": "C41",
   "status": "proved",
   "theorems": [
    "C41_period_frame",
    "C41_simulation_frame",
    "C41_run_defined",
    "C41_exchanges_partial",
    "C41_exchanged_later_refuted"
   ],
   "note": "The property is about one period: C41_period_frame, for any model with or without exchanges and any outcome. The whole simulation has the same frame without exchanges; with exchanges it is false: the exchanged variables are overwritten in all later periods."
  },
  {
   "property": "C42",
   "status": "partial",
   "theorems": [
    "C42_exchange_partial",
    "C42_exchange_refused_iff",
    "C42_order_after_exchange",
    "C42_wrong_variable_refuted"
   ],
   "note": "Distinctness, occurrence and exact conditions of refusal proved for all models; the variable that becomes exogenous is the one asked for unless a loop of dependencies avoiding the exogenous variable goes through its equation, where the code exchanges another variable (refuted by a 3 equation model)."
  },
  {
   "property": "C43",
   "status": "partial",
   "theorems": [
    "C43_sequences_keep_distinct_endogenous_partial",
    "C43_direct_exchanges_partial",
    "C43_second_exchange_refuted",
    "C43_no_more_endogenous_refuted",
    "C43_new_endogenous_refuted",
    "C43_one_after_the_other"
   ],
   "note": "Any sequence keeps distinct endogenous variables without undefined behaviour, and sequences of direct exchanges are applied exactly; the full statement is false of the code: a later exchange looks at the wrong equation, accepts a variable that is not endogenous any more, or raises an exception for a new endogenous variable."
  },
  {
   "property": "C44",
   "status": "partial",
   "theorems": [
    "C44_groups",
    "C44_sum_and_product",
    "C44_sum_of_missing",
    "C44_mean_partial",
    "C44_defined",
    "C44_defined_in_order",
    "C44_mean_refuted",
    "C44_product_of_missing_refuted",
    "C44_no_period_refuted",
    "C44_many_groups_refuted",
    "C44_open_end_refuted"
   ],
   "note": "Sums and products: proved for every set of variables, pattern and arithmetic. Means: all groups are divided by the size of the group of the last variable, so the property holds with a single group and is refuted with two groups of different sizes. Other counterexamples: products of missing values, no period, more than 500 groups, pattern ending with an opening bracket."
  },
  {
   "property": "C45",
   "status": "partial",
   "theorems": [
    "C45_long_words_refuted",
    "C45_short_words_partial"
   ],
   "note": "refuted for words longer than 20 characters; proved up to 20"
  },
  {
   "property": "C46",
   "status": "partial",
   "theorems": [
    "C46_accepted_iff",
    "C46_undefined_refuted"
   ],
   "note": "Accepted texts are exactly the written forms of trees. False for the remaining texts: '(A, B)' and '()' call back() on an empty vector instead of giving an error."
  },
  {
   "property": "C47",
   "status": "partial",
   "theorems": [
    "C47_refuted",
    "C27_one_value_partial"
   ],
   "note": "False: a NA anywhere on the stack makes every nested function NA. For steady formulas C32_evaluate_partial gives compositional evaluation."
  },
  {
   "property": "C48",
   "status": "partial",
   "theorems": [
    "C48_no_access_outside",
    "C48_reading_is_safe",
    "C48_refuted"
   ],
   "note": "Proved for careful histories, the calls on a workspace without sample (KV_add, KV_extrapolate, KV_merge) being the only exceptions; C48_refuted shows the exceptions and an out-of-bounds read after an overwriting rename."
  },
  {
   "property": "C49",
   "status": "partial",
   "theorems": [
    "C49_newton_solution_partial",
    "C49_secant_refuted",
    "C49_indeterminate_refuted"
   ],
   "note": "Proved for values found by Newton's method, any arithmetic. False for the secant method, which takes missing values for negative ones and reads an indeterminate variable."
  },
  {
   "property": "C50",
   "status": "partial",
   "theorems": [
    "C50_simulating_again_partial",
    "C50_implicit_refuted"
   ],
   "note": "Proved for models without exchanges whose prolog and epilog equations are explicit; interdependent equations are arbitrary. False for an implicit equation outside of the iterations (counterexample)."
  },
  {
   "property": "C51",
   "status": "partial",
   "theorems": [
    "C51_diver_list_partial",
    "C51_negative_relaxation",
    "C51_nothing_listed_refuted"
   ],
   "note": "Proved in exact arithmetic without numerical solutions for non-negative relaxations, with respect to the equations solved from the stored values. False for negative relaxations: the list is always empty."
  },
  {
   "property": "C52",
   "status": "proved",
   "theorems": [
    "C52_periods",
    "C52_outside_refused"
   ],
   "note": "With exchanges, the exchanged variables of later periods are excepted (C41)."
  },
  {
   "property": "C53",
   "status": "proved",
   "theorems": [
    "C53_order"
   ],
   "note": ""
  },
  {
   "property": "C54",
   "status": "partial",
   "theorems": [
    "C54_circular",
    "C54_accepted_partial",
    "C54_accepted_refuted"
   ],
   "note": "Circular sets are refused. False: acyclic sets are refused too, because the position is not incremented when an identity is already placed (k_exec.cpp:229); accepted when identities only use earlier ones in the alphabetical order."
  },
  {
   "property": "C55",
   "status": "proved",
   "theorems": [
    "C55_values",
    "C55_holds"
   ],
   "note": "Variables read in the workspace; C58_sources gives the values with files."
  },
  {
   "property": "C56",
   "status": "proved",
   "theorems": [
    "C56_frame"
   ],
   "note": ""
  },
  {
   "property": "C57",
   "status": "partial",
   "theorems": [
    "C57_coefficients_refuted"
   ],
   "note": "False: no identity with a coefficient is ever executed. The database to fill contains every name from the start, so each name is taken as already loaded (k_exec.cpp:584), and the execution is refused."
  },
  {
   "property": "C58",
   "status": "proved",
   "theorems": [
    "C58_sources",
    "C58_missing"
   ],
   "note": ""
  },
  {
   "property": "C59",
   "status": "partial",
   "theorems": [
    "C59_htol_partial",
    "C59_placement_refuted"
   ],
   "note": "Proved for periodicities that divide each other when the workspace is yearly or the file begins with a period of the workspace. False otherwise: HTOL_smpl adds a year instead of a period (witness: monthly file from 2000M2 to a quarterly workspace)."
  },
  {
   "property": "C60",
   "status": "partial",
   "theorems": [
    "C60_htol_refuted",
    "C60_linear_stock_refuted",
    "C59_htol_partial",
    "C61_step_partial",
    "C62_linear_flow_partial"
   ],
   "note": "Holds in the cases of C59, C61 and C62 (the result is Ok, an access outside is UB). False for a file that begins inside a period (writes after the end) and for every linear conversion of a stock whose last two values are numbers (reads after the end). The cubic splines are modelled, not proved."
  },
  {
   "property": "C61",
   "status": "partial",
   "theorems": [
    "C61_step_partial",
    "C61_placement_refuted"
   ],
   "note": "Proved for files that begin with the first period of a year and periodicities that divide each other. False otherwise: the offset is divided by the number of sub-periods instead of multiplied."
  },
  {
   "property": "C62",
   "status": "partial",
   "theorems": [
    "C62_linear_flow_partial",
    "C62_last_flow_refuted",
    "C62_linear_stock_partial"
   ],
   "note": "Proved where a value follows; the last flow of each sequence of numbers is lost and the last stock of each sequence is not kept; the linear conversion of a stock that ends with two numbers is undefined (C60)."
  },
  {
   "property": "C63",
   "status": "partial",
   "theorems": [
    "C63_stock_last_partial",
    "C63_flow_sum_partial",
    "C63_placement_refuted"
   ],
   "note": "Proved for files that begin with the first period of a year and periodicities that divide each other, where the conversions are defined (C59, C61); false for a file that begins later in the year (counterexample: the values come back one quarter earlier)."
  },
  {
   "property": "C64",
   "status": "partial",
   "theorems": [
    "C64_disjoint_partial",
    "C64_nothing_refuted",
    "C64_periodicity_refuted",
    "C64_short_refuted"
   ],
   "note": "Only samples without a common year are reported; the other errors use a null pointer (to->clear())."
  },
  {
   "property": "C65",
   "status": "proved",
   "theorems": [
    "C65_other_variables",
    "C65_other_years_htol",
    "C65_other_years_ltoh"
   ],
   "note": "All methods, all samples, all periodicities; from low to high for a converted sample of at most 32767 periods (a short)."
  },
  {
   "property": "C66",
   "status": "partial",
   "theorems": [
    "C66_comments_partial",
    "C66_content_partial",
    "C66_caret_refuted",
    "C66_sharp_refuted",
    "C66_stable_refuted",
    "C66_lines_refuted"
   ],
   "note": "Proved: comments of one short line come back unchanged, all plain comments keep their names and their non-blank characters in lines of at most 60 characters. Refuted: a caret before a letter, names with a sharp, line feeds, stability of a second save."
  },
  {
   "property": "C67",
   "status": "partial",
   "theorems": [
    "C67_lists_partial",
    "C67_elements_partial",
    "C67_long_refuted",
    "C67_sign_refuted"
   ],
   "note": "Proved: exact for short or multi-line lists; the elements for lists of names of at most 58 characters. Refuted: elements longer than 60 characters or with signs are cut in two. Missing: elements of 59 and 60 characters."
  },
  {
   "property": "C68",
   "status": "partial",
   "theorems": [
    "C68_identities_partial",
    "C68_power_refuted",
    "C68_quote_refuted",
    "C68_number_refuted"
   ],
   "note": "Proved: exact for plain formulas without quote or backslash, short or in several lines. Refuted: X^Y, quotes in LEC comments, numbers such as 1e-5 at the end of a line of 60 characters. Missing: the value of long formulas that are cut elsewhere."
  },
  {
   "property": "C69",
   "status": "partial",
   "theorems": [
    "C69_scalars_partial",
    "C69_digits_partial",
    "C69_nearest",
    "C69_value_na_refuted",
    "C69_relax_na_refuted",
    "C69_precision_refuted",
    "C69_infinite_refuted",
    "C69_minus_zero_refuted"
   ],
   "note": "Proved: exact for numbers of at most 14 digits (standard errors may be NA); relative error below 1e-13 and the same file the second time for all numbers between 1e-306 and 1e307 (negative: above -1e36); the decimal conversion of the model gives a nearest double. Refuted: NA values and relaxations, numbers with more digits, infinities, -0. Missing: numbers outside these ranges."
  },
  {
   "property": "C70",
   "status": "partial",
   "theorems": [
    "C70_variables_partial",
    "C70_digits_partial",
    "C70_keyword_refuted",
    "C70_year_refuted",
    "C70_infinite_refuted"
   ],
   "note": "Proved: exact for NA and numbers of at most 15 digits, samples between the years 1000 and 9999, names that are not keywords; relative error below 1e-14 and the same file the second time for all numbers between 1e-306 and 1e307. Refuted: names such as DATE, years before 1000, infinities. Missing: numbers outside these ranges."
  },
  {
   "property": "C71",
   "status": "partial",
   "theorems": [
    "C71_spline_stock_partial",
    "C71_last_refuted",
    "C71_gap_refuted"
   ],
   "note": "Proved in exact arithmetic for the values known from the first period of the sample on: the natural cubic spline exists, is unique, and its values are those written. Missing: after an interruption of the known values the second derivatives are read at wrong places (C71_gap_refuted), the last period is lost (C71_last_refuted); rounding of doubles."
  },
  {
   "property": "C72",
   "status": "partial",
   "theorems": [
    "C72_spline_flow_partial",
    "C72_first_refuted",
    "C72_last_refuted"
   ],
   "note": "Proved in exact arithmetic for every old period whose neighbours are known, except next to the end of the sample, for values up to 1e30. Missing: the first period, of which the first part is NA and the rest is not adjusted (C72_first_refuted), the last two, left NA (C72_last_refuted); rounding of doubles."
  },
  {
   "property": "C73",
   "status": "proved",
   "theorems": [
    "C73_codepage",
    "C73_bytes",
    "C73_save_refuted"
   ],
   "note": "Conversion proved in both directions for all texts. Refuted, as a consequence for the user: saving a comment with a character outside CP850 (the euro sign) throws after the file has been truncated; the file left on disk cannot be loaded."
  },
  {
   "property": "C74",
   "status": "partial",
   "theorems": [
    "C74_comments_lists",
    "C74_identities",
    "C74_scalars",
    "C74_variables",
    "C74_equations",
    "C74_year_refuted",
    "C74_description_refuted",
    "C74_accent_refuted"
   ],
   "note": "Proved for the six types, compressed or not, when the first year modulo 256 is not zero, the description has less than 64 characters and the comments of equations are ASCII; refuted outside: variables from 2048 lose sample and values, a description of 64 characters makes the load undefined, an accent in the comment of an equation makes the save throw. Missing: tables."
  },
  {
   "property": "C75",
   "status": "proved",
   "theorems": [
    "C75_truncated",
    "C75_refused",
    "C75_thrown_refuted"
   ],
   "note": "Cut files for the six types; any bytes for a load that returns false. Refuted for a load that throws: the objects read before stay."
  },
  {
   "property": "C76",
   "status": "partial",
   "theorems": [
    "C76_selected_partial",
    "C76_absent_refuted",
    "C76_order_refuted",
    "C76_compressed_refuted"
   ],
   "note": "Proved for names in increasing order, all in the file, and a file that is not compressed. Each of the three conditions is necessary: an absent name gets the object of the next name, names out of order fail or get other objects, the objects of a compressed file are read as if they were not (undefined behaviour)."
  },
  {
   "property": "C77",
   "status": "partial",
   "theorems": [
    "C77_loaded",
    "C77_refused_refuted"
   ],
   "note": "Proved for loads that succeed (with C74). Refuted for a refused file: the architecture of the file stays in the database, and what is saved afterwards is refused by load on the same machine."
  },
  {
   "property": "C78",
   "status": "partial",
   "theorems": [
    "C78_columns",
    "C78_group_shift_refuted",
    "C78_both_refuted",
    "C78_blank_refuted"
   ],
   "note": "C78_columns: every sample of the grammar in S_Gsample except those with a non-zero left shift of a group of several columns, for which the property is false (C78_group_shift_refuted: (2000;2001)<1 gives 1999 and 2002). The two periods of an operation have the same periodicity; the two remarks of the code on shifts after an operation are false (C78_both_refuted, C78_blank_refuted). Half-yearly and daily workspaces are left out (NOW does not look at the date there)."
  },
  {
   "property": "C79",
   "status": "partial",
   "theorems": [
    "C79_accepted",
    "C79_rest_ignored",
    "C79_second_refuted",
    "C79_file_refuted",
    "C79_week_refuted",
    "C79_parentheses_refuted",
    "C79_defined_refuted"
   ],
   "note": "C79_accepted: for every text, at least one column, valid first periods, first file in 1..10. False for the second period (C79_second_refuted, C79_week_refuted), the second file (C79_file_refuted), parentheses (C79_rest_ignored: what follows a closing parenthesis too many is ignored, whatever it is; C79_parentheses_refuted); a long number overruns a buffer (C79_defined_refuted)."
  },
  {
   "property": "C80",
   "status": "partial",
   "theorems": [
    "C80_comments_refuted",
    "C80_history_refuted"
   ],
   "note": "False: YY_COMMENT2 stays at 0 after a sample without operator, so that later texts are read differently."
  },
  {
   "property": "C81",
   "status": "partial",
   "theorems": [
    "C81_value",
    "C81_table",
    "C81_no_file",
    "C81_independent_refuted",
    "C81_defined_refuted",
    "C81_second_file_refuted"
   ],
   "note": "Proved for every arithmetic, sample of the grammar, formula and divisor, when the files of the columns are loaded and the formulas can be calculated there; a first file that is not loaded or lacks a name gives not available. Three statements are false of the code: a divisor with a missing name stops the whole line and leaves correct cells at 0; files 6 to 10 read beyond the array of files; a second file 0 reads an uninitialised value."
  },
  {
   "property": "C82",
   "status": "partial",
   "theorems": [
    "C82_order",
    "C82_index",
    "C82_mean",
    "C82_difference",
    "C82_opposite",
    "C82_chain",
    "C82_files",
    "C82_mean_growth",
    "C82_mean_growth_one_refuted"
   ],
   "note": "Exact rational arithmetic (C82_order: every arithmetic); the mean growth on the real numbers. The mean growth rate is wrong when the two values have different signs (refuted: over one period it is not the growth rate)."
  },
  {
   "property": "C83",
   "status": "partial",
   "theorems": [
    "C83_inverse_partial",
    "C83_inverse_refused",
    "C83_inverse_of_definite",
    "C83_solve_partial",
    "C83_no_solution_partial",
    "C83_inverse_found_refuted",
    "C83_small_refused_refuted",
    "C83_solution_refuted"
   ],
   "note": "Refuted: an invertible matrix whose first element is 0 is refused (no exchange of lines); a system whose numbers are below 1e-25 is refused, and a vector that is not a solution can be returned. Missing: rounding."
  },
  {
   "property": "C84",
   "status": "partial",
   "theorems": [
    "C84_normal_equations_partial",
    "C84_two_stages_partial",
    "C84_least_squares_partial",
    "C84_unique_partial",
    "C84_found_partial",
    "C84_instruments",
    "C84_zero_refuted",
    "C84_exact_fit_refuted",
    "C84_failure_keeps_refuted",
    "C84_last_iteration_refuted",
    "C84_defined_refuted",
    "C84_one_instrument_refuted"
   ],
   "note": "Hypotheses: full steps (relaxation 0 or 1), no estimate below 1e-15 in absolute value, no small number in the elimination; existence for one equation. Missing: maximum likelihood, other relaxations, rounding."
  },
  {
   "property": "C85",
   "status": "partial",
   "theorems": [
    "C85_equation",
    "C85_bounds",
    "C85_correlations",
    "C85_rsquare_nonneg_partial",
    "C85_standard_errors_partial",
    "C85_rsquare_nonneg_refuted",
    "C85_rsquare_one_refuted",
    "C85_tests",
    "C85_correlations_of_coefficients"
   ],
   "note": "Real numbers. Missing: the logarithm of the likelihood, standard errors of several equations."
  },
  {
   "property": "C86",
   "status": "partial",
   "theorems": [
    "C86_expand",
    "C86_plain",
    "C86_percent_refuted",
    "C86_brace_refuted",
    "C86_backquote_refuted"
   ],
   "note": "Proved for lines made of the pieces listed, whose texts are well formed (piece_ok). Missing: @functions and nested references as pieces. The unconditional statement is false (refuted)."
  },
  {
   "property": "C87",
   "status": "partial",
   "theorems": [
    "C87_report_ends",
    "C87_report_never_ends"
   ],
   "note": "Refinement of the abstract machine for every report of the form stated; the commands on the workspaces are arbitrary functions. Missing in the form: procedures, $repeat, sub-reports, lines continued or indented, switches."
  },
  {
   "property": "C88",
   "status": "partial",
   "theorems": [
    "C88_report_loops",
    "C88_each_element",
    "C88_prints_elements",
    "C88_continuation_refuted",
    "C88_long_index_refuted",
    "C88_parenthesis_refuted",
    "C88_no_next_refuted"
   ],
   "note": "Refinement proved for lists without parenthesis and quote, index of at most 11 characters, the standard separators; the loop is shown to be a fold of its body. Not in general: four counterexamples."
  },
  {
   "property": "C89",
   "status": "partial",
   "theorems": [
    "C89_procedures",
    "C89_parameter",
    "C89_recursion_refuted",
    "C89_words_refuted",
    "C89_procend_refuted",
    "C89_redefined_inside_refuted"
   ],
   "note": "Definitions at the beginning of the report, formal parameters of at most 11 characters that are words, bodies that leave the saved copies (F#0) alone. Missing: definitions met in the middle of a run, recursive calls (false of the code: refuted), words between quotes."
  },
  {
   "property": "C90",
   "status": "partial",
   "theorems": [
    "C90_trend_partial",
    "C90_log_trend_partial",
    "C90_refused",
    "C90_straight",
    "C90_sums",
    "C90_combination",
    "C90_scale",
    "C90_missing",
    "C90_formula",
    "C90_names",
    "C90_every_lambda_refuted",
    "C90_three_values_refuted",
    "C90_code_refuted",
    "C90_names_refuted"
   ],
   "note": "Over the real numbers, for a lambda that is 0 or at least 2/10^25 (false for smaller positive ones: refuted) and at least four values (five in a formula). Missing: rounding; the loading and storing of the series by the report commands (the names they read are modelled)."
  },
  {
   "property": "C91",
   "status": "partial",
   "theorems": [
    "C91_sums",
    "C91_form",
    "C91_met",
    "C91_unique",
    "C91_converges",
    "C91_zero_rows",
    "C91_command",
    "C91_failure",
    "C91_zero_control_refuted",
    "C91_iterations_refuted",
    "C91_large_eps_refuted",
    "C91_period_refuted",
    "C91_long_pattern_refuted"
   ],
   "note": "Sums, form, uniqueness, convergence and the effect of the command on the workspace are proved over the real numbers, not over double precision; names are expanded as SCR_replace does on lists already split. Refuted: zero controls respected, at most maxit iterations, sums met for thresholds of 1 or more, an error code for a period after the sample, an error code for a pattern of more than 64 characters."
  },
  {
   "property": "C92",
   "status": "partial",
   "theorems": [
    "C92_union",
    "C92_intersection",
    "C92_difference",
    "C92_product",
    "C92_calc_fails",
    "C92_sort",
    "C92_count",
    "C92_append",
    "C92_append_new",
    "C92_sort_in_place_refuted",
    "C92_count_unknown_refuted",
    "C92_unknown_refuted",
    "C92_sort_name_refuted",
    "C92_append_nothing_refuted"
   ],
   "note": "Proved for names in any case, any separators and up to ten levels of references; words of at most 128 characters without quotes. Refuted: an operand that refers to an unknown list gives the empty list and success; the sort with one argument (documented) always fails; refused names and the count of an unknown list are uncaught exceptions; an append without text is undefined. Not covered: @file references inside lists in the theorems (they are in the model)."
  },
  {
   "property": "C93",
   "status": "partial",
   "theorems": [
    "C93_expand",
    "C93_lists",
    "C93_expand_parts",
    "C93_long_name_refuted",
    "C93_longest_name_refuted",
    "C93_overwritten_refuted",
    "C93_levels_refuted",
    "C93_expand_refuted",
    "C93_quoted",
    "C93_quoted_refuted"
   ],
   "note": "Proved for every name and number of elements such that the numbered names have at most 18 characters. Refuted: longer names (the reference is cut at 20 characters and the list no longer expands, or the sublists take the name of the list), lists of the user named like a sublist are replaced, more than ten levels vanish without an error, KL_expand is undefined for empty or short nested lists. Words in quotes are read as they are; not the empty one nor one of 128 characters."
  },
  {
   "property": "C94",
   "status": "partial",
   "theorems": [
    "C94_compare",
    "C94_lists",
    "C94_value",
    "C94_variables",
    "C94_comments_refuted",
    "C94_symmetric_refuted",
    "C94_samples_refuted",
    "C94_empty_file_refuted",
    "C94_code_refuted",
    "C94_threshold"
   ],
   "note": "The comparison of two objects is a parameter, with the exception of variables. Refuted: comments whose names differ in case only, symmetry for variables, files with another sample (values compared by position, read after the end), a file without objects, the return code."
  },
  {
   "property": "C95",
   "status": "proved",
   "theorems": [
    "C95_scan",
    "C95_empty_refuted",
    "C95_old_sublists_refuted"
   ],
   "note": "Names of formulas are those of their compiled form. Refuted: an empty database leaves the lists of an earlier scan; sublists of an earlier longer scan stay."
  },
  {
   "property": "C96",
   "status": "partial",
   "theorems": [
    "C96_equations_partial",
    "C96_exact_partial",
    "C96_block_refuted",
    "C96_infinite_refuted",
    "C96_precision_refuted",
    "C96_lost_refuted",
    "C96_quote_refuted"
   ],
   "note": "Proved: formula, method, sample, comment, block, instruments and date come back for all equations with savable texts, each saved test becomes the float of a number within 8 digits, tests 0 and those of at most 8 digits come back equal. False in general, with witnesses: an empty block, an infinite test or a quote in the formula make the file unreadable; 8 digits do not identify a float; the correlation, the standard error in percents, and the date of an equation without sample are not saved. Missing: formulas of one line longer than 60 characters (a line feed is inserted when loading)."
  },
  {
   "property": "C97",
   "status": "partial",
   "theorems": [
    "C97_rules_partial",
    "C97_change",
    "C97_default_partial",
    "C97_import_partial",
    "C97_blank_line_refuted",
    "C97_no_sample_refuted",
    "C97_one_by_one_refuted",
    "C97_refused_refuted",
    "C97_collision_refuted"
   ],
   "note": "Proved: a file of rules is read as written; names are changed by the first rule that matches (patterns on which C24 holds); a file written by the program is imported exactly without rules, and with rules under the new names, the last variable of the file winning. False: a blank line in the rules reads before a buffer, a file without a sample dereferences a null pointer, the formats that give values one by one import nothing, a refused name throws, two names that become one lose a variable. Missing: files not written by the program; the other formats are given by the values they read."
  },
  {
   "property": "C98",
   "status": "partial",
   "theorems": [
    "C98_best_partial",
    "C98_none_refuted",
    "C98_single_refuted",
    "C98_relax_refuted",
    "C98_stale_refuted",
    "C98_fail_refuted",
    "C98_na_condition_refuted",
    "C98_command_na_refuted",
    "C98_command_minus_refuted",
    "C98_command",
    "C98_missing_variable_refuted"
   ],
   "note": "Proved: for any estimator that repeats its results, the combination left is eligible and no eligible one is better. False: when none is eligible, or with one coefficient, all free coefficients are lost (set to 0 and fixed); relaxation parameters are lost; a failed estimation takes the test of an earlier one, or throws; a condition that cannot be computed counts as true; the command converts NA to an int, and refuses a condition worth -1. The command creates the missing coefficients, also those found before a variable that does not exist, when it fails. Missing: the estimator itself (C84) is a parameter here."
  },
  {
   "property": "C99",
   "status": "partial",
   "theorems": [
    "C99_level",
    "C99_detected",
    "C99_factors",
    "C99_units",
    "C99_constant_refuted",
    "C99_unchanged_refuted",
    "C99_two_years_refuted",
    "C99_errors_refuted"
   ],
   "note": "Proved over the reals: exact separation of a level and factors; with months, which such series are taken for seasonal; independence of the units, missing values included. False: a constant of ten years of quarters, or of 47 months, is taken for seasonal; a series without season is stored shifted when it has a negative value and loses its months before the first whole year; two years read outside the array; an error in the arguments dereferences a null pointer. Missing: rounding in doubles; series that are not exactly a level times factors."
  }
 ]
}
