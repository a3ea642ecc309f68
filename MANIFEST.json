{
 "claims": [
  {
   "property": "C01",
   "status": "proved",
   "theorems": [
    "C01_lru_refines_spec",
    "C01_lru_bounded",
    "C01_lru_zero_capacity"
   ],
   "note": ""
  },
  {
   "property": "C02",
   "status": "proved",
   "theorems": [
    "C02_minhash_rowwise",
    "C02_unique_strings_inverse"
   ],
   "note": ""
  },
  {
   "property": "C03",
   "status": "proved",
   "theorems": [
    "C03_pick_distinct",
    "C03_pick_each_untagged",
    "C03_pick_each",
    "C03_untag_unique"
   ],
   "note": ""
  },
  {
   "property": "C04",
   "status": "partial",
   "theorems": [
    "C04_pick_distinct_all_draws_refuted",
    "C04_pick_identity_partial"
   ],
   "note": "refuted: the random tag is not checked against names in use; positive part: distinct untagged names are kept for every draw (see also C03 for fresh draws)"
  },
  {
   "property": "C05",
   "status": "proved",
   "theorems": [
    "C05_concat_horizontal",
    "C05_concat_each_column",
    "C05_concat_first_unchanged"
   ],
   "note": ""
  },
  {
   "property": "C06",
   "status": "proved",
   "theorems": [
    "C06_expand",
    "C06_de_morgan_or",
    "C06_de_morgan_and",
    "C06_sub",
    "C06_xor",
    "C06_double_negation",
    "C06_partition",
    "C06_expand_index"
   ],
   "note": ""
  },
  {
   "property": "C07",
   "status": "proved",
   "theorems": [
    "C07_cols_strict",
    "C07_select_cols",
    "C07_combined_lenient"
   ],
   "note": ""
  },
  {
   "property": "C08",
   "status": "proved",
   "theorems": [
    "C08_select_drop_partition",
    "C08_selectcols_later",
    "C08_dropcols_later"
   ],
   "note": ""
  },
  {
   "property": "C09",
   "status": "proved",
   "theorems": [
    "C09_fit_transform",
    "C09_fit_error"
   ],
   "note": ""
  },
  {
   "property": "C10",
   "status": "proved",
   "theorems": [
    "C10_provenance"
   ],
   "note": ""
  },
  {
   "property": "C11",
   "status": "proved",
   "theorems": [
    "C11_transform_schema",
    "C11_transform_training_data",
    "C11_transform_error"
   ],
   "note": ""
  },
  {
   "property": "C12",
   "status": "partial",
   "theorems": [
    "C12_permuted_columns_refuted"
   ],
   "note": "refuted: names are assigned by position, so permuted columns are mislabelled; C11 gives the guarantee when the order is the same, and C14 shows that the input check used by TableVectorizer rejects permuted columns"
  },
  {
   "property": "C13",
   "status": "proved",
   "theorems": [
    "C13_fit_transform",
    "C13_any_names",
    "C13_nothing_selected",
    "C13_transform"
   ],
   "note": ""
  },
  {
   "property": "C14",
   "status": "proved",
   "theorems": [
    "C14_fit",
    "C14_fit_rejects",
    "C14_transform_iff",
    "C14_transform_mismatch"
   ],
   "note": ""
  },
  {
   "property": "C15",
   "status": "proved",
   "theorems": [
    "C15_routing",
    "C15_bad_specific",
    "C15_specific_check_iff",
    "C15_bad_name",
    "C15_missing_specific"
   ],
   "note": ""
  },
  {
   "property": "C16",
   "status": "partial",
   "theorems": [
    "C16_provenance_partial",
    "C16_dropped_column_refuted",
    "C16_wrong_origin_refuted"
   ],
   "note": "refuted: a column dropped in preprocessing stays listed as its own output, and can capture the origin of an output of the same name; the partial theorem shows this is the only exception"
  },
  {
   "property": "C17",
   "status": "proved",
   "theorems": [
    "C17_check_key",
    "C17_check_missing_columns"
   ],
   "note": ""
  },
  {
   "property": "C18",
   "status": "proved",
   "theorems": [
    "C18_left_join"
   ],
   "note": ""
  },
  {
   "property": "C19",
   "status": "partial",
   "theorems": [
    "C19_names_distinct",
    "C19_agg_joiner",
    "C19_fit_succeeds",
    "C19_transform",
    "C19_fit_refuses",
    "C19_name_of_key_refuted",
    "C19_agg_target",
    "C19_target_named_as_key_refuted"
   ],
   "note": "refuted when a result takes the name of a key column (pandas), or for AggTarget when a target is named like a key: C19_name_of_key_refuted, C19_target_named_as_key_refuted. Proved for all other inputs: C19_agg_joiner, C19_transform, C19_agg_target, C19_fit_succeeds, C19_names_distinct; refused parameters: C19_fit_refuses"
  },
  {
   "property": "C20",
   "status": "partial",
   "theorems": [
    "C20_multi_agg_joiner",
    "C20_transform",
    "C20_refit_without_X",
    "C20_refit_uses_first_table",
    "C20_refit_refuted",
    "C20_tuple_refused"
   ],
   "note": "refuted when 'X' is among the auxiliary tables (C20_refit_refuted): the first fit replaces 'X' by its main table in the constructor's list; C20_refit_uses_first_table says exactly what the second fit computes. Proved for configurations without 'X' (C20_refit_without_X), and the result of a fresh fit and of transform is characterised for all inputs (C20_multi_agg_joiner, C20_transform)."
  },
  {
   "property": "C21",
   "status": "partial",
   "theorems": [
    "C21_match",
    "C21_exact_accepted",
    "C21_inf_accepts_all",
    "C21_monotone",
    "C21_percentile",
    "C21_null_reference_fails",
    "C21_exact_matches_refuted"
   ],
   "note": "refuted for random_pairs (the default) when the reference distance is 0: match raises ValueError (C21_exact_matches_refuted, C21_null_reference_fails). Proved for the other strategies and for non-zero references: C21_match, C21_exact_accepted, C21_inf_accepts_all, C21_monotone, C21_percentile. Exact rationals"
  },
  {
   "property": "C22",
   "status": "partial",
   "theorems": [
    "C22_joiner",
    "C22_names",
    "C22_transform_like_fit",
    "C22_fuzzy_join",
    "C22_match_info_name_refuted",
    "C22_fuzzy_join_drops_refuted"
   ],
   "note": "refuted when the main table has a column named like a match information column (C22_match_info_name_refuted, C22_fuzzy_join_drops_refuted). Proved otherwise: C22_joiner, C22_transform_like_fit, C22_fuzzy_join, C22_names; C22_joiner also covers the other columns in the refuted case"
  },
  {
   "property": "C23",
   "status": "proved",
   "theorems": [
    "C23_assignments",
    "C23_fit",
    "C23_fit_refuses",
    "C23_transform",
    "C23_fitted_columns"
   ],
   "note": "assumes one vector per row from the vectorizer, one prediction column per target, distinct column names in the auxiliary table"
  },
  {
   "property": "C24",
   "status": "proved",
   "theorems": [
    "C24_evaluation_is_naive_evaluation",
    "C24_earlier_results_have_no_influence",
    "C24_kept_results_do_not_change_the_value",
    "C24_fitted_attributes"
   ],
   "note": ""
  },
  {
   "property": "C25",
   "status": "proved",
   "theorems": [
    "C25_each_node_computed_at_most_once",
    "C25_kept_results_are_reused"
   ],
   "note": ""
  },
  {
   "property": "C26",
   "status": "proved",
   "theorems": [
    "C26_no_results_left"
   ],
   "note": ""
  },
  {
   "property": "C27",
   "status": "proved",
   "theorems": [
    "C27_computes_exactly_what_is_needed",
    "C27_outcome_depends_only_on_what_is_needed"
   ],
   "note": ""
  },
  {
   "property": "C28",
   "status": "proved",
   "theorems": [
    "C28_traversal_terminates",
    "C28_any_traversal_terminates",
    "C28_cycles_rejected_before_computing_anything"
   ],
   "note": ""
  },
  {
   "property": "C29",
   "status": "proved",
   "theorems": [
    "C29_fold_never_computes_the_full_data",
    "C29_fold_depends_only_on_its_own_data"
   ],
   "note": ""
  },
  {
   "property": "C30",
   "status": "proved",
   "theorems": [
    "C30_clone_is_a_copy",
    "C30_clone_succeeds",
    "C30_clone_evaluates_like_the_original",
    "C30_clone_is_independent"
   ],
   "note": ""
  },
  {
   "property": "C31",
   "status": "proved",
   "theorems": [
    "C31_graph_of_expression",
    "C31_graph_well_formed",
    "C31_grid_covers_each_configuration_once"
   ],
   "note": ""
  },
  {
   "property": "C32",
   "status": "proved",
   "theorems": [
    "C32_display_names_distinct",
    "C32_own_name_kept_refuted"
   ],
   "note": "C32_own_name_kept_refuted shows that without distinct given names a unique name may not be kept"
  },
  {
   "property": "C33",
   "status": "proved",
   "theorems": [
    "C33_set_params_by_listed_names",
    "C33_parameter_names_distinct",
    "C33_parameter_of_choice"
   ],
   "note": ""
  },
  {
   "property": "C34",
   "status": "partial",
   "theorems": [
    "C34_bounds_checked",
    "C34_default_within_bounds",
    "C34_grid_within_bounds",
    "C34_grid_draws",
    "C34_log_draws_within_bounds",
    "C34_draws_within_bounds_refuted",
    "C34_linear_draws_partial",
    "C34_linear_draws_miss_values"
   ],
   "note": "refuted: continuous linear ranges are sampled in [low, low+high]; C34_linear_draws_partial shows that they stay in the bounds exactly when 0 does; proved for log scales, defaults and grids. Real numbers, no floating point rounding"
  },
  {
   "property": "C35",
   "status": "proved",
   "theorems": [
    "C35_match",
    "C35_match_of_match",
    "C35_composition",
    "C35_default_outcome"
   ],
   "note": ""
  },
  {
   "property": "C36",
   "status": "partial",
   "theorems": [
    "C36_calls_return_expressions_refuted",
    "C36_returned_partial"
   ],
   "note": "refuted: a call whose preview is None returns None; C36_returned_partial characterises the result of every call"
  },
  {
   "property": "C37",
   "status": "proved",
   "theorems": [
    "C37_conflicts_found",
    "C37_reported_conflicts",
    "C37_marked_node_found"
   ],
   "note": ""
  },
  {
   "property": "C38",
   "status": "proved",
   "theorems": [
    "C38_complete",
    "C38_repaired",
    "C38_archive_removed_refuted"
   ],
   "note": "Any history of single processes; liveness in C38_repaired. C38_archive_removed_refuted records that removing the damaged archive by hand after a crash loses this."
  },
  {
   "property": "C39",
   "status": "partial",
   "theorems": [
    "C39_undamaged",
    "C39_refuted"
   ],
   "note": "Refuted when the archive is damaged locally (C39_refuted); proved for any number of processes otherwise (C39_undamaged)."
  },
  {
   "property": "C40",
   "status": "partial",
   "theorems": [
    "C40_history",
    "C40_rows",
    "C40_works",
    "C40_killed",
    "C40_killed_refuted",
    "C40_prefix_refuted"
   ],
   "note": "Refuted: C40_killed_refuted, C40_prefix_refuted. Proved: histories without a kill during the writes, for identifiers that are not prefixes of one another (C40_history, C40_works); C40_killed describes every crash point."
  },
  {
   "property": "C41",
   "status": "proved",
   "theorems": [
    "C41_headers",
    "C41_spans",
    "C41_horizontal"
   ],
   "note": ""
  },
  {
   "property": "C42",
   "status": "proved",
   "theorems": [
    "C42_rows"
   ],
   "note": ""
  },
  {
   "property": "C43",
   "status": "proved",
   "theorems": [
    "C43_displays",
    "C43_unpatched"
   ],
   "note": "For every sequence of calls; the classes must not already have attributes with the names of the stash."
  },
  {
   "property": "C44",
   "status": "proved",
   "theorems": [
    "C44_restored"
   ],
   "note": "For every plotting function and validation; the values stored before must themselves be valid settings."
  },
  {
   "property": "C45",
   "status": "partial",
   "theorems": [
    "C45_histogram",
    "C45_refuted"
   ],
   "note": "Proved for finite values; refuted with infinite values (nothing is displayed or counted)."
  },
  {
   "property": "C46",
   "status": "proved",
   "theorems": [
    "C46_score",
    "C46_value"
   ],
   "note": "Any strings, n, notion of white space and lower-casing; ZeroDivisionError exactly when no string has an n-gram."
  },
  {
   "property": "C47",
   "status": "partial",
   "theorems": [
    "C47_similarities",
    "C47_unknown",
    "C47_refuted",
    "C47_lower_refuted"
   ],
   "note": "Proved for texts with at least max_n - 1 characters and character-wise lower-casing; refuted otherwise (similarity 3 for 'a' with ngram_range (2, 5); 0 with a letter whose lower case is longer)."
  },
  {
   "property": "C48",
   "status": "partial",
   "theorems": [
    "C48_value",
    "C48_inclusion",
    "C48_murmur_value",
    "C48_murmur_inclusion",
    "C48_truncated_refuted",
    "C48_inclusion_refuted",
    "C48_single_length_refuted"
   ],
   "note": "Exact value and inclusion proved (fast hash: one byte per character; murmur hash: any characters, words). Refuted for other characters: the end of the string is ignored and inclusion fails; and for the largest length of ngram_range, which is never used."
  },
  {
   "property": "C49",
   "status": "partial",
   "theorems": [
    "C49_translation",
    "C49_total",
    "C49_few_words_refuted"
   ],
   "note": "proved for every clustering: the result pairs each given word in order with a most frequent word of its cluster, consistently and idempotently (C49_translation), and there is a result when the number of clusters is given or there are four distinct words (C49_total); refuted without a number of clusters for fewer than four distinct words, which are refused (C49_few_words_refuted)"
  },
  {
   "property": "C50",
   "status": "partial",
   "theorems": [
    "C50_advertised",
    "C50_no_resolution_refuted",
    "C50_names_refuted",
    "C50_tag_refuted"
   ],
   "note": "C50_advertised characterises exactly when the advertised names are those of the output (distinct); refuted otherwise: with a periodic encoding, a resolution finer than the hour and no weekday, encodings of the weekday are advertised and not output; without resolution a periodic encoding fails (C50_no_resolution_refuted); names that are not strings fail (C50_names_refuted); tags in names (C50_tag_refuted)"
  },
  {
   "property": "C51",
   "status": "proved",
   "theorems": [
    "C51_minhash",
    "C51_text"
   ],
   "note": "for every name and every number of components"
  },
  {
   "property": "C52",
   "status": "partial",
   "theorems": [
    "C52_string_forgets",
    "C52_string_fresh",
    "C52_string_refuted",
    "C52_text_forgets",
    "C52_text_fresh",
    "C52_text_refuted",
    "C52_text_model_refuted"
   ],
   "note": "after any history of fits, the attributes are those of a new encoder when the last fit computes a decomposition or no earlier one did (C52_string_forgets, C52_text_forgets), and a new encoder outputs what it advertises and what it output at fit (C52_string_fresh, C52_text_fresh); refuted otherwise: the decomposition of an earlier fit makes transform fail (C52_string_refuted) or output fewer columns than advertised (C52_text_refuted), and the model of the first fit is kept (C52_text_model_refuted)"
  },
  {
   "property": "C53",
   "status": "proved",
   "theorems": [
    "C53_unchanged",
    "C53_rowwise",
    "C53_history",
    "C53_transforms"
   ],
   "note": "C53_unchanged: transform changes no attribute even if it fails; C53_rowwise: the rows of an output depend on their own text only, whatever the other rows; C53_history, C53_transforms: whatever was transformed before"
  },
  {
   "property": "C54",
   "status": "partial",
   "theorems": [
    "C54_known",
    "C54_hashing_forgets",
    "C54_statistics",
    "C54_hashing_refuted"
   ],
   "note": "without hashing all texts are remembered (C54_known) and topics are quotients of rho-weighted sums over all batches (C54_statistics); refuted with hashing=True: each call of partial_fit starts from scratch (C54_hashing_forgets, C54_hashing_refuted)"
  },
  {
   "property": "C55",
   "status": "partial",
   "theorems": [
    "C55_table",
    "C55_bounds",
    "C55_symmetric",
    "C55_exact",
    "C55_zero",
    "C55_one",
    "C55_duplicates_refuted",
    "C55_integers_refuted"
   ],
   "note": "one row per pair, decreasing scores in [0,1], symmetric, equal to Cramer's V (C55_table, C55_bounds, C55_symmetric, C55_exact, C55_zero, C55_one) for distinct text names; refuted for pandas columns that share a name (pairs repeated) or all-integer names (ValueError)"
  },
  {
   "property": "C56",
   "status": "partial",
   "theorems": [
    "C56_exact",
    "C56_kept",
    "C56_none",
    "C56_monotone",
    "C56_transform",
    "C56_not_fitted",
    "C56_invalid",
    "C56_rejected",
    "C56_monotone_refuted"
   ],
   "note": "exact for columns with rows (rows times the denominator of the threshold below 2^52), whatever the rounding of floats within the usual error bound; lowering the threshold never keeps more for columns with rows; refuted for a column without rows, which is dropped with the threshold 1 and kept with lower ones (C56_monotone_refuted)"
  },
  {
   "property": "C57",
   "status": "proved",
   "theorems": [
    "C57_exact",
    "C57_other",
    "C57_idempotent"
   ],
   "note": "a value becomes null exactly when it is a blank string or a listed marker, in pandas object and string columns and polars string columns; others rejected; idempotent. Parameter: which characters are white space (the newline is)."
  },
  {
   "property": "C58",
   "status": "partial",
   "theorems": [
    "C58_partial",
    "C58_one_letter",
    "C58_refuted",
    "C58_zero_refuted"
   ],
   "note": "refuted: only the first n_ex letters of the n_ex entries of an example have a draw, whatever the probability all later entries are the example itself (C58_refuted); an example with 0 entries raises IndexError (C58_zero_refuted); what does hold of each letter is C58_partial"
  },
  {
   "property": "C59",
   "status": "partial",
   "theorems": [
    "C59_advertised_names_refuted"
   ],
   "note": "refuted for names with a tag that is not at their end; C13_fit_transform proves it for untagged names"
  },
  {
   "property": "C60",
   "status": "proved",
   "theorems": [
    "C60_transform_schema"
   ],
   "note": ""
  },
  {
   "property": "C61",
   "status": "partial",
   "theorems": [
    "C61_tagged_name_refuted"
   ],
   "note": "refuted: a column name with a tag that is not at its end makes fit raise KeyError; C15_routing proves success for canonical names"
  },
  {
   "property": "C62",
   "status": "proved",
   "theorems": [
    "C62_inactive_choices_do_not_matter",
    "C62_grid_is_exhaustive"
   ],
   "note": ""
  },
  {
   "property": "C63",
   "status": "proved",
   "theorems": [
    "C63_conflicts_rejected",
    "C63_dataframes_rejected",
    "C63_preview_kept"
   ],
   "note": ""
  },
  {
   "property": "C64",
   "status": "proved",
   "theorems": [
    "C64_columns",
    "C64_nulls"
   ],
   "note": "for every valid combination with a resolution if there is a periodic encoding (otherwise the fit fails, see C50), names without skrub tag, and at least a row for splines"
  },
  {
   "property": "C65",
   "status": "proved",
   "theorems": [
    "C65_frame"
   ],
   "note": "for vocabularies as CountVectorizer makes them"
  },
  {
   "property": "C66",
   "status": "partial",
   "theorems": [
    "C66_values",
    "C66_names_refuted"
   ],
   "note": "topics and encodings are unchanged (C66_values); refuted for the names of the columns: score adds entries to the activations the names are computed from (C66_names_refuted)"
  },
  {
   "property": "C67",
   "status": "proved",
   "theorems": [
    "C67_fit_forgets"
   ],
   "note": "for calls that succeed"
  },
  {
   "property": "C68",
   "status": "proved",
   "theorems": [
    "C68_accepted",
    "C68_accepts",
    "C68_dates",
    "C68_others",
    "C68_errors",
    "C68_function"
   ],
   "note": "C68_accepted, C68_accepts, C68_dates, C68_others, C68_errors, C68_function"
  },
  {
   "property": "C69",
   "status": "partial",
   "theorems": [
    "C69_month_first",
    "C69_day_first_partial",
    "C69_refuted"
   ],
   "note": "refuted for 31 entries whatever the sample (C69_refuted): the sample may contain only ambiguous dates, then the column is rejected; C69_day_first_partial proves it for at most 30 entries that are not null, C69_month_first for month-first columns of any length"
  },
  {
   "property": "C70",
   "status": "partial",
   "theorems": [
    "C70_transform",
    "C70_same",
    "C70_polars_refuted",
    "C70_unnamed_refuted",
    "C70_unnamed_later_refuted"
   ],
   "note": "refuted for polars strings after a fit on datetimes (C70_polars_refuted, AttributeError) and for time zones without a name (C70_unnamed_refuted, C70_unnamed_later_refuted, TypeError); C70_transform and C70_same prove it in all other cases"
  },
  {
   "property": "C71",
   "status": "partial",
   "theorems": [
    "C71_partial",
    "C71_refuted"
   ],
   "note": "refuted: a rejected fit replaces the format, and an unfitted converter then raises AttributeError instead of NotFittedError (C71_refuted); C71_partial proves that the output type is kept"
  },
  {
   "property": "C72",
   "status": "proved",
   "theorems": [
    "C72_total",
    "C72_nulls"
   ],
   "note": "The number of nulls and the level are exact for any column"
  },
  {
   "property": "C73",
   "status": "partial",
   "theorems": [
    "C73_partial",
    "C73_nan_refuted",
    "C73_categories_refuted"
   ],
   "note": "refuted: NaN in float columns of polars is counted as a value (C73_nan_refuted) and unused categories of pandas too (C73_categories_refuted); exact for all other columns"
  },
  {
   "property": "C74",
   "status": "partial",
   "theorems": [
    "C74_partial",
    "C74_value_partial",
    "C74_refuted",
    "C74_categories_refuted",
    "C74_durations",
    "C74_table_partial"
   ],
   "note": "refuted: the constant of a column of numbers whose first entry is null is reported as null (C74_refuted); a column with unused categories is not recognised (C74_categories_refuted); durations are compared after rounding to floats (C74_durations). Proved when all categories occur and distinct durations stay distinct"
  },
  {
   "property": "C75",
   "status": "proved",
   "theorems": [
    "C75_counts"
   ],
   "note": "Values of categories that do not occur may be listed with 0 occurrences, which is their true number"
  },
  {
   "property": "C76",
   "status": "proved",
   "theorems": [
    "C76_quantiles",
    "C76_present",
    "C76_range",
    "C76_unit"
   ],
   "note": "For any rounding of the positions to a nearest one"
  },
  {
   "property": "C77",
   "status": "partial",
   "theorems": [
    "C77_partial",
    "C77_table_partial",
    "C77_refuted"
   ],
   "note": "refuted: the constant value depends on the order of the rows (C77_refuted); all the rest does not"
  },
  {
   "property": "C78",
   "status": "proved",
   "theorems": [
    "C78_rows"
   ],
   "note": "C78_rows covers results_ and detailed_results_, one or several metrics; the row of each candidate, the order, the names of columns and the list of logarithmic columns"
  },
  {
   "property": "C79",
   "status": "partial",
   "theorems": [
    "C79_partial",
    "C79_metrics_refuted",
    "C79_nested_refuted"
   ],
   "note": "refuted: with several metrics none of which is called score there is never a plot (C79_metrics_refuted), nor if a column of other things than numbers has no value in the rows that are kept, as for nested choices or outcomes that are all None (C79_nested_refuted). C79_partial: otherwise there is one, with one axis per column"
  },
  {
   "property": "C80",
   "status": "partial",
   "theorems": [
    "C80_categories_partial",
    "C80_categories_refuted",
    "C80_nulls_partial",
    "C80_nulls_refuted"
   ],
   "note": "refuted: with 102 categories the jitter can bring a line nearer to another tick (C80_categories_refuted); missing values of a numeric choice whose values are all equal are drawn on this value (C80_nulls_refuted). C80_categories_partial: up to 100 categories; C80_nulls_partial: numbers that are not all equal"
  },
  {
   "property": "C81",
   "status": "proved",
   "theorems": [
    "C81_transform_training_data"
   ],
   "note": "Pipelines are linear: each step is applied to the result of the previous one; the targets are the same for all. Assumes that fit_transform of a transformer returns what its transform then gives (Consistent)."
  },
  {
   "property": "C82",
   "status": "partial",
   "theorems": [
    "C82_partial",
    "C82_tables_partial",
    "C82_arrays_refuted",
    "C82_stacked_refuted"
   ],
   "note": "refuted: an intermediate step whose estimator (as used: without wrapper) has the method called runs this method instead of transform. With arrays, the score of a PCA is given to the final estimator in mode score (C82_arrays_refuted); on dataframes, a predictor followed by another gives probabilities (C82_stacked_refuted). Proved if the intermediate estimators lack the method, in particular for transformers applied to dataframes without how=full_frame (C82_tables_partial)."
  },
  {
   "property": "C83",
   "status": "partial",
   "theorems": [
    "C83_predictors_partial",
    "C83_transformers",
    "C83_unsupervised_fails",
    "C83_array_and_column_fails",
    "C83_refuted"
   ],
   "note": "refuted: with unsupervised=True an estimator that predicts but does not transform can never be fitted (AttributeError, C83_unsupervised_fails), nor one fitted on an array with a column of a dataframe as targets (NotImplementedError, C83_array_and_column_fails). Proved for transformers, and for predictors on dataframes or with targets that are not a column or dataframe."
  },
  {
   "property": "C84",
   "status": "partial",
   "theorems": [
    "C84_partial",
    "C84_refuted"
   ],
   "note": "refuted for targets that have the same name: some predictions are lost (C84_refuted). Proved if names are distinct and there are as many predictions as targets."
  },
  {
   "property": "C85",
   "status": "partial",
   "theorems": [
    "C85_options_partial",
    "C85_refused",
    "C85_allow_reject_refuted",
    "C85_subframe_refuted"
   ],
   "note": "refuted: allow_reject=True is ignored for estimators that are not for single columns (C85_allow_reject_refuted), how='subframe' always raises (C85_subframe_refuted; the code expects 'sub_frame'). Everything else is honoured (C85_options_partial), or refused with ValueError (C85_refused)."
  },
  {
   "property": "C86",
   "status": "partial",
   "theorems": [
    "C86_straight",
    "C86_last_fit_partial",
    "C86_refuted"
   ],
   "note": "refuted: with if_else or match, a branch not taken by the last fit keeps what an earlier fit left in it, and later calls use it (C86_refuted). Proved: for expressions that end with an apply step and have no such branches (C86_straight), and in general when the fitted steps used were computed by the last fit (C86_last_fit_partial)."
  },
  {
   "property": "C87",
   "status": "partial",
   "theorems": [
    "C87_marked",
    "C87_refuses",
    "C87_fits_computed",
    "C87_report_marks_refuted",
    "C87_failed_refit_refuted"
   ],
   "note": "refuted: a report in mode fit whose evaluation fails marks the estimator as fitted (C87_report_marks_refuted); a failed refit changes what the estimator answers (C87_failed_refit_refuted). Proved: the estimator is marked iff a call in a fitting mode returned, refuses to be used and does not change before, and a call can only fit steps it has computed."
  },
  {
   "property": "C88",
   "status": "partial",
   "theorems": [
    "C88_uses_change_nothing",
    "C88_preview_refuted"
   ],
   "note": "proved for transform, predict, predict_proba, decision_function, score, their reports, and sub_estimator; refuted for preview, which is offered as a method and refits (C88_preview_refuted)."
  },
  {
   "property": "C89",
   "status": "partial",
   "theorems": [
    "C89_sub",
    "C89_refit_refuted"
   ],
   "note": "refuted for fitting: fitting the sub-estimator changes the original one, their nodes are shared (C89_refit_refuted). Proved: KeyError iff no part has the name, otherwise a part with that name, same mark, nothing else changes; using either does not change the other (C88)."
  },
  {
   "property": "C90",
   "status": "partial",
   "theorems": [
    "C90_partial",
    "C90_refuted"
   ],
   "note": "refuted when the step is evaluated by transform and the rest by predict, as intermediate steps run predict if they have it (C90_refuted). Proved when both are evaluated in the same mode (by the method or the report)."
  },
  {
   "property": "C91",
   "status": "partial",
   "theorems": [
    "C91_partial",
    "C91_fit_refuted"
   ],
   "note": "refuted for mode fit: a second report does not fit again and shows the earlier result (C91_fit_refuted). Proved for all other modes."
  },
  {
   "property": "C92",
   "status": "proved",
   "theorems": [
    "C92_offered"
   ],
   "note": ""
  },
  {
   "property": "C93",
   "status": "proved",
   "theorems": [
    "C93_types",
    "C93_total",
    "C93_invalid",
    "C93_errors"
   ],
   "note": "For both libraries; tables with distinct column names."
  },
  {
   "property": "C94",
   "status": "partial",
   "theorems": [
    "C94_same_names",
    "C94_same_kinds",
    "C94_accepts",
    "C94_cleaner_partial",
    "C94_cleaner_refuted"
   ],
   "note": "refuted: the Cleaner returns later columns unchanged where the fit saw numbers (C94_cleaner_refuted). Proved: the TableVectorizer's first steps give the same names and kinds (C94_same_names, C94_same_kinds), the Cleaner does for other columns (C94_cleaner_partial), and later tables of the same types are accepted (C94_accepts)."
  },
  {
   "property": "C95",
   "status": "partial",
   "theorems": [
    "C95_cleaner",
    "C95_texts",
    "C95_table_vectorizer_partial",
    "C95_durations_refuted"
   ],
   "note": "refuted: missing durations of pandas become numbers in the TableVectorizer (C95_durations_refuted). Proved for the Cleaner, and for the TableVectorizer for all other columns."
  },
  {
   "property": "C96",
   "status": "proved",
   "theorems": [
    "C96_fit",
    "C96_order",
    "C96_rejects",
    "C96_transform"
   ],
   "note": "For all categorical columns, ordered or not, of any entries."
  },
  {
   "property": "C97",
   "status": "proved",
   "theorems": [
    "C97_same_output"
   ],
   "note": "Zones of datetimes must have a name the library finds again."
  },
  {
   "property": "C98",
   "status": "proved",
   "theorems": [
    "C98_names",
    "C98_steps",
    "C98_total"
   ],
   "note": "Lists of steps per column, what transform applies and when it succeeds."
  },
  {
   "property": "C99",
   "status": "partial",
   "theorems": [
    "C99_partial",
    "C99_refuted"
   ],
   "note": "refuted: objects whose text reads as a date become texts, then datetimes (C99_refuted). Proved for columns without such objects (C99_partial)."
  },
  {
   "property": "C100",
   "status": "partial",
   "theorems": [
    "C100_copy_has_same_choices",
    "C100_matched_by_identity_refuted"
   ],
   "note": "refuted: outcomes that are compared by identity (estimators, say) are copied while the keys of a mapping are not, so choices matched on them break in copies; C100_copy_has_same_choices proves it when copies of outcomes can be looked up like the outcomes"
  },
  {
   "property": "C101",
   "status": "proved",
   "theorems": [
    "C101_X_and_y_of_marked_nodes",
    "C101_only_marked_nodes",
    "C101_shared_work_done_once"
   ],
   "note": "values are those of the denotation of the expression in mode fit_transform with nothing fitted"
  },
  {
   "property": "C102",
   "status": "proved",
   "theorems": [
    "C102_split_environments",
    "C102_no_leak"
   ],
   "note": "the splitter is an arbitrary function of X and y"
  },
  {
   "property": "C103",
   "status": "partial",
   "theorems": [
    "C103_best_estimator_is_fitted_estimator",
    "C103_fitted_before_X_refuted",
    "C103_methods_refuted"
   ],
   "note": "refuted: (1) if a step that is fitted is used to compute X or y, the best estimator is not fitted for it and raises AttributeError on new data; (2) the methods of a search are those of the expression with default choices, so a method only the best estimator has is missing. The theorem proves equality of all answers of best_estimator_ when no fitted step is upstream of X and y"
  },
  {
   "property": "C104",
   "status": "partial",
   "theorems": [
    "C104_no_answer_before_fit",
    "C104_answers_of_last_refit",
    "C104_stale_estimator_refuted"
   ],
   "note": "refuted: after a fit without refit the best_estimator_ of an earlier fit still answers; the theorems prove the rest for all histories"
  },
  {
   "property": "C105",
   "status": "partial",
   "theorems": [
    "C105_called_on_values",
    "C105_values_determined",
    "C105_nested_refuted",
    "C105_method_refuted",
    "C105_later_definition_refuted"
   ],
   "note": "Refuted in general: globals used only by functions nested in the deferred one are not evaluated (C105_nested_refuted), bound methods with expressions in their defaults lose their object (C105_method_refuted), globals assigned after decoration are not seen (C105_later_definition_refuted). C105_called_on_values proves the property for functions that have none of these, C105_values_determined that it fixes the values."
  },
  {
   "property": "C106",
   "status": "proved",
   "theorems": [
    "C106_called_as_it_is"
   ],
   "note": "For all functions, methods and callables in which nothing contains an expression; variables may have changed since."
  },
  {
   "property": "C107",
   "status": "partial",
   "theorems": [
    "C107_fails_only_on_unassigned",
    "C107_twice",
    "C107_recursive_refuted",
    "C107_bunch_refuted"
   ],
   "note": "Refuted: functions that refer to variables not yet assigned (recursive local functions) fail (C107_recursive_refuted), and those that refer to containers whose class cannot be called on the items (C107_bunch_refuted). Proved: these are the only failures for containers that can be rebuilt (C107_fails_only_on_unassigned), deferring again changes nothing (C107_twice)."
  },
  {
   "property": "C108",
   "status": "partial",
   "theorems": [
    "C108_unchanged",
    "C108_environment",
    "C108_fitted_refuted",
    "C108_classes_refuted"
   ],
   "note": "Refuted: fitted estimators arrive as unfitted clones (C108_fitted_refuted), containers of classes that are not called on their items (named tuples, Bunch) fail (C108_classes_refuted). Proved for ordinary objects (C108_unchanged, C108_environment)."
  },
  {
   "property": "C109",
   "status": "proved",
   "theorems": [
    "C109_graph",
    "C109_drawing"
   ],
   "note": "Graph and drawing, for all expressions that do not contain themselves (others raise, see C28)."
  },
  {
   "property": "C110",
   "status": "partial",
   "theorems": [
    "C110_steps_listed",
    "C110_short_refuted"
   ],
   "note": "Refuted for the length: an expression of n+1 steps can have 2^n lines, for every n (C110_short_refuted). The rest is proved (C110_steps_listed), with the exact number of lines."
  },
  {
   "property": "C111",
   "status": "partial",
   "theorems": [
    "C111_iterations",
    "C111_linear_without_sharing",
    "C111_sharing_refuted"
   ],
   "note": "Refuted: n times x = x + x gives n+1 steps and more than 2^n iterations of the check run at each creation, of the listing of nodes and of the description, for every n (C111_sharing_refuted). Exact count proved (C111_iterations); linear when nothing is used twice (C111_linear_without_sharing)."
  },
  {
   "property": "C112",
   "status": "partial",
   "theorems": [
    "C112_escaped",
    "C112_label",
    "C112_name_refuted"
   ],
   "note": "Refuted: names are not escaped in labels with links (C112_name_refuted). Proved for names without markup characters and all descriptions (C112_label, C112_escaped)."
  },
  {
   "property": "C113",
   "status": "proved",
   "theorems": [
    "C113_on_example_data"
   ],
   "note": "Exact for Python with exception notes; before 3.11 errors of steps become RuntimeError in the evaluation but not in the preview (same_outcome). Steps reading the mode and preset choices are excluded, as in the property."
  },
  {
   "property": "C114",
   "status": "partial",
   "theorems": [
    "C114_values_not_used",
    "C114_values_used_partial",
    "C114_report_partial",
    "C114_replaces_refuted",
    "C114_report_refuted"
   ],
   "note": "With the name of a variable in the environment the example values do not matter and the report agrees with eval. False otherwise: a misspelled environment is evaluated on the example data by eval (C114_replaces_refuted) and fails in the report (C114_report_refuted)."
  },
  {
   "property": "C115",
   "status": "partial",
   "theorems": [
    "C115_same_value",
    "C115_given",
    "C115_preview_partial",
    "C115_applied_estimator_refuted"
   ],
   "note": "Values, previews and the original are kept. The estimator fitted for the preview is not: applied_estimator fails on a renamed step (C115_applied_estimator_refuted). The preview claim is proved for steps that have a preview."
  },
  {
   "property": "C116",
   "status": "partial",
   "theorems": [
    "C116_gives_expression_partial",
    "C116_value",
    "C116_call_partial",
    "C116_gives_expression_refuted",
    "C116_call_refuted"
   ],
   "note": "Values are those of the operator and of calls. An operand on the left whose own operator accepts any object gives no expression (C116_gives_expression_refuted); calling an attribute that was given a name ignores the value given for it (C116_call_refuted)."
  },
  {
   "property": "C117",
   "status": "proved",
   "theorems": [
    "C117_fit",
    "C117_transform"
   ],
   "note": "For encoders with numeric outputs. C117_fit: all outputs are 32-bit floats or, with ToCategorical, string categories; C117_transform: later outputs have the same names and kinds, whatever the types of the later columns."
  },
  {
   "property": "C118",
   "status": "partial",
   "theorems": [
    "C118_pipeline",
    "C118_predict",
    "C118_statistics",
    "C118_refused",
    "C118_positive_refuted"
   ],
   "note": "C118_pipeline and C118_predict: what the last estimator gets at fit and at prediction; C118_statistics: the numbers, with the statistics of the fit; C118_refused: other arguments. C118_positive_refuted: estimators that take only positive numbers get negative ones, as columns are centred whatever the tag positive_only."
  },
  {
   "property": "C119",
   "status": "partial",
   "theorems": [
    "C119_default",
    "C119_custom",
    "C119_similar",
    "C119_names_refuted",
    "C119_reset_refuted",
    "C119_similar_refuted"
   ],
   "note": "Default and positional custom filters show exactly what they announce. Refuted: custom filters given by names as documented show nothing; a custom key all() changes Reset; beyond 20 similar pairs, similar columns may be missing."
  },
  {
   "property": "C120",
   "status": "partial",
   "theorems": [
    "C120_exact",
    "C120_content",
    "C120_written",
    "C120_durations_refuted",
    "C120_nan_refuted"
   ],
   "note": "Exact condition for success; contents. Refuted: constant durations raise TypeError; associations of non-numeric columns give NaN, which standard JSON does not have."
  },
  {
   "property": "C121",
   "status": "partial",
   "theorems": [
    "C121_path",
    "C121_path_error",
    "C121_lost_refuted",
    "C121_binary",
    "C121_text",
    "C121_refused",
    "C121_object"
   ],
   "note": "Contents and errors for paths and objects. Refuted: a page with a lone surrogate empties the file before failing."
  },
  {
   "property": "C122",
   "status": "partial",
   "theorems": [
    "C122_returned",
    "C122_others",
    "C122_can_return",
    "C122_encoded",
    "C122_timeout_refuted",
    "C122_serving_refuted",
    "C122_stuck_refuted"
   ],
   "note": "Return only after a complete answer, with the server stopped. Refuted: after a timeout the server goes on (the docstring says it is shut down); a silent client makes open hang for ever."
  },
  {
   "property": "C123",
   "status": "partial",
   "theorems": [
    "C123_ellide",
    "C123_shown",
    "C123_color_refuted",
    "C123_size_refuted",
    "C123_dollar_refuted",
    "C123_different_refuted"
   ],
   "note": "Proved for all texts and figures: the shape and length of labels (C123_ellide); plain texts are shown as they are and leave the rest of the figure unchanged (C123_shown). False in general, with counterexamples: texts that contain a placeholder color or a size, dollars, and values that differ only in whitespace share a label (the _refuted theorems)."
  },
  {
   "property": "C124",
   "status": "partial",
   "theorems": [
    "C124_zero",
    "C124_less_than",
    "C124_error",
    "C124_exact",
    "C124_monotone",
    "C124_less_than_is_less",
    "C124_all_refuted"
   ],
   "note": "Proved for all rational proportions, except that 100.0% is also shown for proportions from 0.9995 (C124_all_refuted). The arithmetic is exact."
  },
  {
   "property": "C125",
   "status": "partial",
   "theorems": [
    "C125_defined",
    "C125_total",
    "C125_red",
    "C125_far",
    "C125_few",
    "C125_detected",
    "C125_detected_refuted",
    "C125_units",
    "C125_outside",
    "C125_outside_refuted"
   ],
   "note": "Proved for all lists of rationals, in exact arithmetic. False, with counterexamples: far values are not outliers when the middle 60% is constant (C125_detected_refuted); with a single bar an outlier may lie inside the drawn range (C125_outside_refuted). Infinite values are not modelled."
  },
  {
   "property": "C126",
   "status": "proved",
   "theorems": [
    "C126_same",
    "C126_readable"
   ],
   "note": "For all columns of rationals; the 90% quantile is any function that gives the nearest value (Nearest9)."
  },
  {
   "property": "C127",
   "status": "partial",
   "theorems": [
    "C127_names_given",
    "C127_text_iff",
    "C127_text_others",
    "C127_text_digit",
    "C127_text_refuted",
    "C127_text_changed_refuted",
    "C127_steps_lines",
    "C127_steps_fail",
    "C127_line_named",
    "C127_line_named_words",
    "C127_line_others",
    "C127_line_refuted",
    "C127_label_others",
    "C127_label_named",
    "C127_label_broken"
   ],
   "note": "Exact: C127_text_iff characterises the names that show as they are (no digit at the start, no backslash before a letter, digit or backslash). Others make repr, describe_steps, graphs and reports fail or show something else (C127_text_refuted, C127_text_changed_refuted, C127_steps_fail). Lines put the first word of the name in capitals, so different names look alike (C127_line_refuted). Labels with a link are broken by < in names (C127_label_broken)."
  },
  {
   "property": "C128",
   "status": "partial",
   "theorems": [
    "C128_fit",
    "C128_later",
    "C128_names_of_last_fit",
    "C128_error_keeps_names",
    "C128_refused",
    "C128_other_columns_pandas",
    "C128_more_rows_pandas",
    "C128_permuted_refuted",
    "C128_other_columns_polars_refuted",
    "C128_fewer_rows_refuted",
    "C128_rows_polars_refuted",
    "C128_none_refuted"
   ],
   "note": "Proved for tables of one library with equal numbers of rows and columns, for all histories (C128_names_of_last_fit). Refuted: permuted columns are mislabelled, polars does not notice missing columns, tables with fewer rows are completed with nulls, polars adds rows to the first table, None among the tables is not reported as announced."
  },
  {
   "property": "C129",
   "status": "partial",
   "theorems": [
    "C129_words",
    "C129_fit_is_transform",
    "C129_sizes",
    "C129_unknown",
    "C129_values",
    "C129_grams",
    "C129_accepted",
    "C129_accepted_hashing",
    "C129_errors",
    "C129_later_accepted",
    "C129_any_column_refuted",
    "C129_told_apart_refuted"
   ],
   "note": "Proved: codes depend on the words only (C129_words), agree between fit and later calls, sizes, unknown entries, values without SVD, counts of n-grams, accepted columns and errors. Refuted: any column of texts is accepted (C129_any_column_refuted: a column of blank texts and nulls raises ValueError with the default tfidf vectorizer); texts without a common n-gram are told apart (C129_told_apart_refuted: in a column with no more rows than n_components only the first n-grams in sorted order are kept). TfidfTransformer, HashingVectorizer and TruncatedSVD are parameters."
  },
  {
   "property": "C130",
   "status": "partial",
   "theorems": [
    "C130_grid",
    "C130_polars",
    "C130_no_columns",
    "C130_any_frame_refuted"
   ],
   "note": "C130_grid (pandas, dataframes with columns) and C130_polars (all dataframes) are the full claim for these; C130_no_columns gives the exact outcome without columns. Refuted for the rest: a dataframe without columns whose columns axis and index both have names raises IndexError (C130_any_frame_refuted)."
  },
  {
   "property": "C131",
   "status": "partial",
   "theorems": [
    "C131_rows",
    "C131_projected",
    "C131_outcome",
    "C131_search_by_type",
    "C131_types",
    "C131_tables",
    "C131_type_names_refuted",
    "C131_one_space_refuted",
    "C131_enough_refuted"
   ],
   "note": "C131_rows, C131_projected, C131_types, C131_tables: what is returned; C131_outcome: exactly when. C131_search_by_type for names of ordinary characters. Refuted: names with groups do not match themselves (C131_type_names_refuted), each file is projected on its own (C131_one_space_refuted) and must have enough entities (C131_enough_refuted)."
  },
  {
   "property": "C132",
   "status": "partial",
   "theorems": [
    "C132_columns_keep_rows",
    "C132_steps_keep_index",
    "C132_other_lengths_refused",
    "C132_short_outputs_padded",
    "C132_subframe_keeps_rows",
    "C132_arrays_keep_rows",
    "C132_dates_keep_rows",
    "C132_lost_rows_refused_refuted",
    "C132_lost_rows_subframe_refuted"
   ],
   "note": "Proved: with outputs of the right length, index and rows of the input, whatever the indexes of outputs; any successful chain of column steps keeps the index; outputs that are longer, or all shorter, are refused. False as stated: an output with fewer rows beside a full column is completed with nulls at the end (C132_short_outputs_padded gives the exact result; refuted for both ways of applying)."
  },
  {
   "property": "C133",
   "status": "partial",
   "theorems": [
    "C133_joiner_keeps_rows",
    "C133_interpolation_keeps_rows",
    "C133_target_by_position",
    "C133_index_kept_refuted"
   ],
   "note": "Proved: rows in order, matches and predictions by position, target by position. False as stated: Joiner and joins by key give a new index 0, 1... instead of that of the main table (C133_index_kept_refuted; C133_joiner_keeps_rows states the index exactly); InterpolationJoiner keeps it."
  },
  {
   "property": "C134",
   "status": "partial",
   "theorems": [
    "C134_types_apart",
    "C134_nulls",
    "C134_cardinality",
    "C134_cardinality_monotone",
    "C134_same_types_partial",
    "C134_same_values_partial",
    "C134_numbers_are_integers_or_floats_refuted",
    "C134_booleans_and_categories_refuted",
    "C134_nan_counts_refuted",
    "C134_nan_is_null_refuted",
    "C134_alike_refuted"
   ],
   "note": "Proved: integers and floats are disjoint and numeric; numeric, string, date and boolean or categorical selectors are disjoint; has_nulls and cardinality_below are exact and monotone, and the libraries agree, under conditions on NaN and kinds. False as stated: complex and decimal numbers; Boolean categories are both boolean and categorical; NaN counts as a value in polars and is no null in nullable pandas columns; integers with nulls, dates, decimals, all-null texts and pyarrow texts are not selected alike."
  },
  {
   "property": "C135",
   "status": "partial",
   "theorems": [
    "C135_each_configuration_in_one_block",
    "C135_lines",
    "C135_empty",
    "C135_names_apart",
    "C135_strings_read_back",
    "C135_numeric_choices",
    "C135_all_outcomes_refuted",
    "C135_names_on_one_line_refuted"
   ],
   "note": "Proved for names of choices on one line that can be told from what follows, and outcomes that are named or at most six, short, different and plain (strings, integers, objects whose repr has no comma or bracket). Refuted without these conditions: lists of more than six unnamed outcomes are cut, and a line break in a name makes lines that are not those of choices."
  },
  {
   "property": "C136",
   "status": "proved",
   "theorems": [
    "C136_last_registered",
    "C136_libraries_apart",
    "C136_failures",
    "C136_failure_is_atomic",
    "C136_narrower_wins_refuted"
   ],
   "note": "Proved for all class hierarchies and histories. C136_narrower_wins_refuted records that only the order of registrations counts, which the statement says."
  },
  {
   "property": "C137",
   "status": "partial",
   "theorems": [
    "C137_subframe_fit",
    "C137_subframe_fit_error",
    "C137_asked_container",
    "C137_subframe_transform",
    "C137_transform_like_fit_refuted",
    "C137_columns_fit",
    "C137_columns_fit_error",
    "C137_columns_same_library",
    "C137_each_column_checked_refuted",
    "C137_columns_transform"
   ],
   "note": "Proved: which outputs are accepted when fitting and with what errors, that results are eager dataframes of the input's library, that the container asked for is accepted. Refuted: outputs accepted when fitting may be refused when transforming (conversion for scikit-learn < 1.4 is done only when fitting, C137_transform_like_fit_refuted); only the first column of a list is checked (C137_each_column_checked_refuted)."
  },
  {
   "property": "C138",
   "status": "proved",
   "theorems": [
    "C138_computes_only_what_is_used",
    "C138_answers_depend_only_on_what_is_used",
    "C138_unused_names_are_not_needed"
   ],
   "note": "Proved for all expressions, environments, fitted states and the methods listed; the model is that of evaluation (M_expr.v)."
  },
  {
   "property": "C139",
   "status": "proved",
   "theorems": [
    "C139_keyword_arguments",
    "C139_keyword_arguments_refused",
    "C139_names",
    "C139_nested_parameters_cannot_be_given",
    "C139_index_by_name",
    "C139_discretized_choices_are_sequences",
    "C139_other_choices_are_not_sequences",
    "C139_choose_from",
    "C139_map_values",
    "C139_value_of_mapped_choice",
    "C139_optional",
    "C139_if_else",
    "C139_if_else_accepts"
   ],
   "note": "Keyword arguments, indexing, sequence methods, construction and map_values; values, comparison and the mapping functions are arbitrary. Python's call and Sequence protocols are part of the model. Nested parameters (pca__n) cannot be given this way: proved."
  },
  {
   "property": "C140",
   "status": "partial",
   "theorems": [
    "C140_agg_joiner_partial",
    "C140_agg_joiner_order_refuted",
    "C140_multi_agg_joiner_partial",
    "C140_multi_agg_joiner_columns",
    "C140_multi_agg_joiner_order_refuted",
    "C140_interpolation_joiner_order_refuted"
   ],
   "note": "Proved: the same rows and columns up to the order of columns, and exactly the same when cols is given, in all circumstances (AggJoiner and MultiAggJoiner). Refuted: with the default cols, and for columns predicted together by an InterpolationJoiner, the order of columns is that of a Python set of strings, which changes with the hash seed."
  },
  {
   "property": "C141",
   "status": "partial",
   "theorems": [
    "C141_kind_partial",
    "C141_kind_nested_refuted",
    "C141_kind_chosen_refuted"
   ],
   "note": "Proved when the estimator is given directly, or is the default outcome of one choice or match. Refuted for nested choices (a choice of choices of classifiers counts as a transformer) and compared with what was chosen (it is the default that counts)."
  },
  {
   "property": "C142",
   "status": "partial",
   "theorems": [
    "C142_classes_partial",
    "C142_classes_no_variable_refuted",
    "C142_classes_silent_refuted"
   ],
   "note": "Proved for pipelines whose steps wait for the value of a variable. Refuted when the expression holds its data: asking is a RuntimeError and fits the final step again, or gives the classes and silently fits an earlier step again, which changes predictions."
  },
  {
   "property": "C143",
   "status": "partial",
   "theorems": [
    "C143_pages_tell_partial",
    "C143_hidden_failure_refuted",
    "C143_fit_shows_nothing_refuted"
   ],
   "note": "Proved for every evaluation that begins without results (clear) in a mode other than fit, of any acyclic expression: outputs exactly for the steps that the result needed and computed, the error on the page of the step that failed. False, and refuted, for failures in if_else, match and containers, which no page shows, and for the mode fit, where every page says that its step did not run."
  },
  {
   "property": "C144",
   "status": "partial",
   "theorems": [
    "C144_pages_link_partial",
    "C144_used_and_used_by_refuted"
   ],
   "note": "Proved with the two labels exchanged: the template shows the steps that use this one under 'This step used' and the steps it uses under 'This step was used by'. As stated it is refuted."
  },
  {
   "property": "C145",
   "status": "partial",
   "theorems": [
    "C145_nothing_else_changes",
    "C145_directory_that_exists",
    "C145_directory_of_a_report",
    "C145_old_report_lost_refuted",
    "C145_failed_report_in_the_way_refuted"
   ],
   "note": "Proved except for the last sentence, which is refuted: with overwrite the old report is deleted first and lost when the new one fails, and a report that fails leaves its directory, so that trying again is refused."
  },
  {
   "property": "C146",
   "status": "partial",
   "theorems": [
    "C146_saving_changes_nothing_partial",
    "C146_weights_suffice",
    "C146_other_model_refuted",
    "C146_other_process_refuted"
   ],
   "note": "Proved for all histories in which the parameters that the model is loaded with do not change, in one process, and, if weights are stored, in any process and for any change. Refuted otherwise: without weights a loaded encoder loads the model that is asked for now, with the decomposition of the old one, or fails if it cannot be found."
  },
  {
   "property": "C147",
   "status": "partial",
   "theorems": [
    "C147_not_fitted_partial",
    "C147_failed_fit_refuted",
    "C147_loads_first_refuted"
   ],
   "note": "Proved: without an attempt to fit, no table, and NotFittedError, ValueError or the error of loading. Refuted: transform loads the model before it says that the encoder is not fitted, and after a fit that failed the encoder counts as fitted and raises AttributeError."
  },
  {
   "property": "C148",
   "status": "proved",
   "theorems": [
    "C148_answers",
    "C148_structure",
    "C148_apart"
   ],
   "note": "For every state of the nodes and every sequence of later calls. Assumes that plain values and fitted attributes come back as they were. C148_structure: one new object for each saved one; C148_apart: using the loaded one changes nothing else."
  },
  {
   "property": "C149",
   "status": "partial",
   "theorems": [
    "C149_can_save_partial",
    "C149_saved_values",
    "C149_can_make_partial",
    "C149_deep_refuted",
    "C149_fitted_refuted"
   ],
   "note": "False as stated. C149_deep_refuted: for every recursion limit there is a pipeline of additions that can be evaluated and for which get_estimator fails (evaluation has no recursion, pickling has). C149_fitted_refuted: what is fitted may be impossible to save though get_estimator's check passed. Proved: get_estimator and saving succeed when objects are nested less deep than the limit and the values (for saving also the fitted attributes) can be written; and what was saved was all writable."
  },
  {
   "property": "C150",
   "status": "partial",
   "theorems": [
    "C150_refuses_partial",
    "C150_fit_refuses_partial",
    "C150_delegated_partial",
    "C150_columns",
    "C150_made",
    "C150_inherited_refuted"
   ],
   "note": "False as stated: C150_inherited_refuted (methods inherited from another superclass, which the documentation allows, are not wrapped: a dataframe is accepted). Proved: methods defined by a derived class refuse before any effect; so do the fit that is given by SingleColumnTransformer and methods of other classes that first call a refusing method (TransformerMixin.fit_transform of GapEncoder); for columns the checks change nothing; exactly when a class can be made."
  },
  {
   "property": "C151",
   "status": "partial",
   "theorems": [
    "C151_kept",
    "C151_paragraph_partial",
    "C151_indent",
    "C151_spaces",
    "C151_lines",
    "C151_one_line_refuted"
   ],
   "note": "False as stated: C151_one_line_refuted (after a one-line documentation, or when the blank line after the summary is only the indentation of the closing quotes, the note directly follows the summary line). Proved: the text is always kept around one insertion; when the first paragraph is followed by a complete blank line the note is a paragraph after it; its indentation is that of the least indented line after the first."
  },
  {
   "property": "C152",
   "status": "partial",
   "theorems": [
    "C152_same_partial",
    "C152_raises_partial",
    "C152_is_none_refuted",
    "C152_function_refuted"
   ],
   "note": "holds unless the code asks 'is None' of an expression or hands expressions to plain functions that accept them: both refuted"
  },
  {
   "property": "C153",
   "status": "proved",
   "theorems": [
    "C153_now",
    "C153_set",
    "C153_later",
    "C153_attributes"
   ],
   "note": "for the language of M_staging.v; __setattr__ is as __setitem__ and not modelled"
  }
 ]
}