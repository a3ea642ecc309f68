{"id": "C01", "title": "LRU cache behaves like an abstract least-recently-used map", "statement": "For any capacity >= 1 and any sequence of reads, membership tests and writes, LRUDict answers every operation exactly as an idealised LRU map would: a read returns the last value written for that key unless at least `capacity` other distinct keys were touched since the key was last touched, in which case it returns -1; the number of stored keys never exceeds the capacity and no key is stored twice.", "quantifier": "all capacities >= 1 and all finite operation histories", "why_tests_cant": "Eviction bugs depend on long interleavings of reads and writes; tests only try a handful of histories.", "anchors": ["skrub/_utils.py:LRUDict"]}
{"id": "C02", "title": "MinHashEncoder output is a row-wise function of the input, whatever the cache history and the parallel split", "statement": "Whatever strings a fitted MinHashEncoder has transformed before, and however the distinct strings are split in batches for n_jobs workers, row i of transform(X) is the hash vector of the i-th string (nulls hash like the empty string); it does not depend on the other rows.", "quantifier": "all columns (with nulls and duplicates), all previous transform calls, all n_jobs, all cache capacities >= 1", "why_tests_cant": "Cache eviction, de-duplication/re-expansion and slicing only interact on large inputs and long histories.", "anchors": ["skrub/_minhash_encoder.py:MinHashEncoder.transform", "skrub/_minhash_encoder.py:MinHashEncoder._compute_hash_batched", "skrub/_utils.py:unique_strings", "skrub/_utils.py:LRUDict"]}
{"id": "C03", "title": "Picked column names are as many as requested, distinct, and avoid every forbidden name", "statement": "Given suggested names and a set of forbidden names, the names picked by skrub (for joins, horizontal concatenation and column-wise transformers) are as many as the suggestions, pairwise distinct and none is forbidden, provided the random tags drawn were not already used; a suggestion that carries no skrub tag, is not forbidden and has not been used earlier in the list is kept unchanged, and a name that has to be changed keeps its original text as a prefix followed by a `__skrub_<8 hex>__` tag.", "quantifier": "all lists of suggested names (including names already carrying skrub tags), all forbidden sets, all fresh random draws", "why_tests_cant": "The name space is infinite and pathological names (already tagged, clashing with generated tags) are rarely tried.", "anchors": ["skrub/_join_utils.py:pick_column_names", "skrub/_join_utils.py:_get_new_name"]}
{"id": "C04", "title": "Picked column names are distinct whatever the random draws", "statement": "The names picked by skrub are pairwise distinct and avoid the forbidden names for every outcome of the random number generator (not only for outcomes that happen to be fresh).", "quantifier": "all suggestions, forbidden sets and random draws", "why_tests_cant": "A collision needs a specific random draw, which tests cannot wait for.", "anchors": ["skrub/_join_utils.py:_get_new_name", "skrub/_utils.py:random_string"]}
{"id": "C05", "title": "Horizontal concatenation gives every column a distinct name and never alters data", "statement": "When dataframes are concatenated horizontally, the result has the columns of all inputs in order with unchanged data; all names are distinct (fresh tags), and names that were unique and untagged are unchanged, so columns of the first dataframe are never renamed because of later ones.", "quantifier": "all lists of dataframes with arbitrary (duplicate) names", "why_tests_cant": "Requires quantification over all combinations of clashing names.", "anchors": ["skrub/_join_utils.py:make_column_names_unique", "skrub/_dataframe/_common.py:concat_horizontal"]}
{"id": "C06", "title": "Selectors obey Boolean algebra and dataframe order", "statement": "For any dataframe and any selector expression built from primitive selectors with ~, |, &, - and ^, the expanded columns are exactly the dataframe's columns satisfying the corresponding Boolean combination, in dataframe order; De Morgan, a - b = a & ~b, a ^ b = (a | b) - (a & b) and double negation hold, and a selector together with its complement partitions the columns.", "quantifier": "all dataframes and all selector expressions of any depth (with arbitrary column predicates)", "why_tests_cant": "Selector expressions are an infinite recursive language.", "anchors": ["skrub/_selectors/_base.py:Selector.expand", "skrub/_selectors/_base.py:Inv", "skrub/_selectors/_base.py:Or", "skrub/_selectors/_base.py:And", "skrub/_selectors/_base.py:Sub", "skrub/_selectors/_base.py:XOr"]}
{"id": "C07", "title": "A list of column names used alone as a selector is strict and ordered", "statement": "Selecting with an explicit list of column names returns exactly those columns in the given order, and raises an error exactly when at least one name is missing; combining it with other selectors never raises and ignores missing names.", "quantifier": "all dataframes, all name lists", "why_tests_cant": "Universally quantified over names and combinations.", "anchors": ["skrub/_selectors/_base.py:Cols", "skrub/_selectors/_base.py:make_selector", "skrub/_selectors/_base.py:select"]}
{"id": "C08", "title": "SelectCols and DropCols are complementary and stable from fit to transform", "statement": "After fitting SelectCols and DropCols with the same selector on the same dataframe, their outputs are disjoint and together contain each column exactly once with its data unchanged; on any later dataframe, SelectCols returns precisely the columns chosen at fit (same names, same order), ignoring extra columns, and raises if a needed column is missing, while DropCols returns precisely the columns that were not chosen at fit.", "quantifier": "all selectors, all fit dataframes, all transform dataframes", "why_tests_cant": "Needs all pairs of fit/transform schemas.", "anchors": ["skrub/_select_cols.py:SelectCols", "skrub/_select_cols.py:DropCols"]}
{"id": "C09", "title": "Column-wise application leaves other columns alone and yields distinct names", "statement": "Applying a transformer column by column outputs, in input column order, each unselected (or rejected) column unchanged and each transformed column's outputs in its place (preceded by the original when keep_original is set); if the input names are distinct and the tags fresh, all output names are distinct, and no output takes the name of another input column.", "quantifier": "all dataframes, selectors, transformers (any number of outputs, any rejection pattern), renaming patterns, keep_original values", "why_tests_cant": "Transformers are arbitrary functions; name clashes depend on all combinations of output names.", "anchors": ["skrub/_on_each_column.py:OnEachColumn.fit_transform", "skrub/_on_each_column.py:_fit_transform_column"]}
{"id": "C10", "title": "Column-wise application reports faithful provenance", "statement": "After fitting, the recorded mapping from inputs to outputs lists for each used input exactly the columns created from it, the reverse mapping sends each created column to its input and nothing else, and the created outputs are exactly the output columns that come from a used input.", "quantifier": "all dataframes, selectors, transformers", "why_tests_cant": "Universally quantified over transformers and name clashes.", "anchors": ["skrub/_on_each_column.py:OnEachColumn._process_fit_transform_results"]}
{"id": "C11", "title": "Column-wise transform reproduces the fitted schema", "statement": "For any later dataframe with the same column names in the same order, transform returns exactly the output names of fit, in the same order, each being computed by the transformer fitted on the corresponding input column.", "quantifier": "all fitted transformers that keep their number of outputs, all later dataframes with the fitted schema", "why_tests_cant": "Ranges over all transformers and data.", "anchors": ["skrub/_on_each_column.py:OnEachColumn.transform"]}
{"id": "C12", "title": "Column-wise transform labels each column correctly even if columns are permuted", "statement": "If a later dataframe contains the same columns in another order, each output column of transform still carries the name recorded at fit for the data it contains.", "quantifier": "all permutations of the fitted columns", "why_tests_cant": "Tests use dataframes with the fitted column order.", "anchors": ["skrub/_on_each_column.py:OnEachColumn.transform"]}
{"id": "C13", "title": "Sub-frame application leaves other columns alone and is stable from fit to transform", "statement": "Applying a transformer to the sub-dataframe of selected columns outputs the untouched columns with their data followed by the transformer outputs, with distinct names given fresh tags; transform on a dataframe with the same columns yields the same names in the same order.", "quantifier": "all dataframes, selectors, transformers", "why_tests_cant": "Universally quantified over transformers and schemas.", "anchors": ["skrub/_on_subframe.py:OnSubFrame"]}
{"id": "C14", "title": "Input checking normalises names and pins the schema", "statement": "After the input check, column names are distinct strings; at transform, the check accepts a dataframe exactly when its library and its list of column names equal those seen at fit, and then outputs the same normalised names as at fit; data is never changed.", "quantifier": "all fit and transform tables, all (duplicate or non-string) names", "why_tests_cant": "Needs all pairs of schemas.", "anchors": ["skrub/_check_input.py:CheckInputDataFrame"]}
{"id": "C15", "title": "TableVectorizer routes every column exactly once", "statement": "Each column surviving the preprocessing is handled by exactly one of: numeric, datetime, low-cardinality, high-cardinality encoder or the user-provided specific transformer; specific columns bypass both preprocessing and the automatic encoders; the kind recorded for each column matches the encoder that processed it; configurations that mention a column twice or a column missing from the table are rejected.", "quantifier": "all tables, all specific_transformers configurations, all encoders", "why_tests_cant": "The routing is a chain of selectors depending on the outcome of the previous steps; combinations are unbounded.", "anchors": ["skrub/_table_vectorizer.py:TableVectorizer._make_pipeline", "skrub/_table_vectorizer.py:TableVectorizer._check_specific_columns", "skrub/_table_vectorizer.py:TableVectorizer._store_column_kinds", "skrub/_table_vectorizer.py:_created_by"]}
{"id": "C16", "title": "TableVectorizer provenance refers to existing outputs", "statement": "After fitting a TableVectorizer, every output listed for an input column is a column of the transformed table, and the reverse mapping sends exactly the output columns to the input they come from.", "quantifier": "all tables and encoders", "why_tests_cant": "Needs columns dropped during preprocessing whose names interact with generated names.", "anchors": ["skrub/_table_vectorizer.py:TableVectorizer._store_processing_steps", "skrub/_table_vectorizer.py:TableVectorizer._store_output_to_input"]}
{"id": "C17", "title": "Join keys are resolved unambiguously", "statement": "Joiners accept exactly the key specifications that give either `key` alone or both `main_key` and `aux_key`, of equal lengths; they then join the i-th main key with the i-th auxiliary key, and report missing columns exactly when a key column is absent.", "quantifier": "all combinations of key arguments and tables", "why_tests_cant": "Decision table over unbounded lists.", "anchors": ["skrub/_join_utils.py:check_key", "skrub/_join_utils.py:check_missing_columns"]}
{"id": "C18", "title": "Left join keeps the left table", "statement": "skrub's left join outputs the left columns first with unchanged names, then the right columns without the right keys under distinct names; if no two right rows share a key, the output has exactly the left rows in order, each completed with the values of its unique matching right row or with nulls.", "quantifier": "all tables, keys and renaming patterns", "why_tests_cant": "All data and all name clashes.", "anchors": ["skrub/_join_utils.py:left_join"]}
{"id": "C19", "title": "Aggregation names identify column and operation, and aggregation joins keep the main rows", "statement": "Aggregating (column, operation) pairs gives one output per pair with pairwise distinct names; AggJoiner output has exactly the main table's rows in order, and the aggregated values attached to a row are computed from exactly the auxiliary rows whose key equals that row's key.", "quantifier": "all tables, keys, columns and operation lists", "why_tests_cant": "Requires all data and all names (with underscores).", "anchors": ["skrub/_agg_joiner.py:aggregate", "skrub/_agg_joiner.py:_perform_groupby_pandas", "skrub/_agg_joiner.py:AggJoiner"]}
{"id": "C20", "title": "Refitting a MultiAggJoiner depends only on the last fit", "statement": "Fitting a MultiAggJoiner a second time on another table gives the same result as fitting a fresh, identically configured MultiAggJoiner on that table.", "quantifier": "all pairs of successive fits, in particular configurations using 'X' as auxiliary table", "why_tests_cant": "Depends on histories of fits; estimators are usually fitted once in tests.", "anchors": ["skrub/_multi_agg_joiner.py:MultiAggJoiner._check_dataframes", "skrub/_multi_agg_joiner.py:MultiAggJoiner.fit_transform"]}
{"id": "C21", "title": "A fuzzy match is accepted exactly within the rescaled threshold", "statement": "A row's nearest neighbour is accepted exactly when its rescaled distance is at most max_dist, where the rescaled distance is distance/reference, infinite if only the reference is zero, and zero when the distance is zero; hence exact matches are always accepted for max_dist >= 0, every match is accepted for max_dist = inf, and increasing max_dist never removes matches.", "quantifier": "all distances, reference distances and thresholds", "why_tests_cant": "Boundary cases (zero reference, infinite threshold) over all reals.", "anchors": ["skrub/_matching.py:Matching.match", "skrub/_matching.py:Matching._rescale_distances"]}
{"id": "C22", "title": "Fuzzy joining keeps main rows and columns and attaches the matched auxiliary row", "statement": "Joiner output has exactly one row per main row, in order; a row with an accepted match carries the matched auxiliary row's values, any other row carries nulls in the auxiliary columns; every column of the main table is preserved unchanged.", "quantifier": "all tables, matchings, suffixes, including main tables that already contain the match-information columns", "why_tests_cant": "Requires every table and every column naming.", "anchors": ["skrub/_joiner.py:Joiner._transform", "skrub/_fuzzy_join.py:fuzzy_join"]}
{"id": "C23", "title": "InterpolationJoiner predicts every eligible column exactly once", "statement": "Each numeric auxiliary column outside the key is assigned to exactly one regressor and each string/categorical one to exactly one classifier; columns containing nulls are always predicted alone, so no row is discarded because of another column's null; a column whose estimator failed at prediction is filled with nulls while the others are unaffected, and failing columns at fit are simply absent from the output.", "quantifier": "all auxiliary tables, estimators, failure patterns", "why_tests_cant": "Failure patterns are exponential in the number of columns.", "anchors": ["skrub/_interpolation_joiner.py:InterpolationJoiner", "skrub/_interpolation_joiner.py:_get_assignments_for_estimator"]}
{"id": "C24", "title": "Evaluating an expression gives its mathematical value whatever the caching and pruning", "statement": "Evaluating an expression graph returns the value obtained by naively evaluating it as a tree: sharing, caching of intermediate results and the removal of intermediate results during evaluation never change the value or the error raised.", "quantifier": "all finite acyclic expression graphs, all node functions, all environments, all choices", "why_tests_cant": "All graph shapes; bugs appear for particular sharing patterns.", "anchors": ["skrub/_expressions/_evaluation.py:_Evaluator", "skrub/_expressions/_evaluation.py:evaluate", "skrub/_expressions/_evaluation.py:_cache_pruner"]}
{"id": "C25", "title": "Each step of an expression is computed at most once per evaluation", "statement": "During one evaluation each node's computation runs at most once, however many other nodes use it and even though intermediate results are discarded as soon as they are no longer needed.", "quantifier": "all finite acyclic expression graphs", "why_tests_cant": "All graph shapes: premature pruning only shows for particular orders of evaluation.", "anchors": ["skrub/_expressions/_evaluation.py:_Evaluator", "skrub/_expressions/_evaluation.py:_Reachable", "skrub/_expressions/_evaluation.py:_cache_pruner"]}
{"id": "C26", "title": "Evaluation leaves no cached data behind, even on failure", "statement": "After an evaluation in which results are to be cleared, no node reachable from the expression holds a result for that mode, whether the evaluation succeeded or raised at any point; results for other modes and all nodes outside the expression are untouched.", "quantifier": "all graphs, all failing nodes, all prior cache contents", "why_tests_cant": "Every crash point in every graph.", "anchors": ["skrub/_expressions/_evaluation.py:evaluate", "skrub/_expressions/_evaluation.py:clear_results"]}
{"id": "C27", "title": "Conditional expressions evaluate only the branch they need", "statement": "Evaluating an if_else (or match) expression computes the condition and only the selected branch: a branch that is not selected is never evaluated, so its failure cannot affect the result; match uses the default exactly when the key is absent.", "quantifier": "all graphs and branches", "why_tests_cant": "All programs.", "anchors": ["skrub/_expressions/_evaluation.py:_Evaluator.handle_expr", "skrub/_expressions/_expressions.py:IfElse", "skrub/_expressions/_expressions.py:Match"]}
{"id": "C28", "title": "Circular expressions are detected, others terminate", "statement": "Evaluation of an expression terminates; it reports a circular reference exactly when the traversal meets a node that is still being evaluated.", "quantifier": "all finite graphs, cyclic or not", "why_tests_cant": "All graphs.", "anchors": ["skrub/_expressions/_evaluation.py:_ExprTraversal.run"]}
{"id": "C29", "title": "Cross-validation folds see only the data they are given", "statement": "When the environment provides the value for the node marked as X (or y), the evaluation never computes that node nor anything used only through it, and the result does not depend on variables that influence the expression only through X and y: training on a fold cannot see held-out rows.", "quantifier": "all expression graphs, all environments", "why_tests_cant": "Non-interference quantifies over pairs of runs.", "anchors": ["skrub/_expressions/_evaluation.py:_Evaluator._fetch", "skrub/_expressions/_estimator.py:train_test_split", "skrub/_expressions/_estimator.py:_XyEstimatorMixin._get_env"]}
{"id": "C30", "title": "Cloning an expression is faithful and independent", "statement": "Cloning yields a graph of fresh nodes with the same shape, sharing and evaluation result as the original, and no node in common with it.", "quantifier": "all finite acyclic expression graphs", "why_tests_cant": "All graph shapes and sharing patterns.", "anchors": ["skrub/_expressions/_evaluation.py:_Cloner", "skrub/_expressions/_evaluation.py:clone"]}
{"id": "C31", "title": "The parameter grid covers each active configuration exactly once", "statement": "For every assignment of outcomes to the choices of an expression, exactly one sub-grid contains it restricted to its active choices (those reachable given the outcomes of the choices they are nested in); no sub-grid mentions an inactive choice.", "quantifier": "all choice graphs, with any nesting and sharing of choices", "why_tests_cant": "Combinatorial: all nesting structures and assignments.", "anchors": ["skrub/_expressions/_evaluation.py:_expand_grid", "skrub/_expressions/_evaluation.py:param_grid", "skrub/_expressions/_evaluation.py:choice_graph"]}
{"id": "C32", "title": "Choice display names are distinct", "statement": "The display names of the choices of an expression are pairwise distinct and listed in the order of the choices; when no two choices were given the same name, every choice with a name keeps it.", "quantifier": "all sets of choices and names (including names that look like numbered names)", "why_tests_cant": "Adversarial names such as a, a, a_1.", "anchors": ["skrub/_expressions/_evaluation.py:_choice_display_names"]}
{"id": "C33", "title": "Hyper-parameters can be set by the names under which they are listed", "statement": "For every choice, the parameter name listed by get_params can be passed back to set_params and reaches the same choice; setting a parameter changes only that choice.", "quantifier": "all choice identifiers and all settings", "why_tests_cant": "Infinitely many identifiers.", "anchors": ["skrub/_expressions/_estimator.py:ExprEstimator.get_params", "skrub/_expressions/_estimator.py:ExprEstimator.set_params", "skrub/_expressions/_evaluation.py:set_params"]}
{"id": "C34", "title": "Numeric choices only produce values within their bounds", "statement": "A numeric choice with bounds low < high only ever samples values between low and high; its default and (for a stepped range) all its grid values lie within the bounds, the grid is increasing and starts at low.", "quantifier": "all bounds, all random draws, all step counts", "why_tests_cant": "Continuous ranges and random draws.", "anchors": ["skrub/_expressions/_choosing.py:NumericChoice", "skrub/_expressions/_choosing.py:DiscretizedNumericChoice"]}
{"id": "C35", "title": "Matching on a choice composes", "statement": "choice.match(f) takes the value f assigns to the chosen outcome, and choice.match(f).match(g) takes the value g assigns to f's value; an incomplete mapping without default is rejected, as is a mapping with keys that are not outcomes.", "quantifier": "all choices, outcome lists and mappings", "why_tests_cant": "All mappings.", "anchors": ["skrub/_expressions/_choosing.py:Choice.match", "skrub/_expressions/_choosing.py:Match.match", "skrub/_expressions/_choosing.py:_check_match_keys"]}
{"id": "C36", "title": "Applying a deferred function always yields an expression", "statement": "Calling a deferred function or a method on an expression always returns an expression, whatever the value of its preview (including None).", "quantifier": "all preview values", "why_tests_cant": "The None case triggers only a warning and is easily missed.", "anchors": ["skrub/_expressions/_expressions.py:_check_return_value"]}
{"id": "C37", "title": "Name and X/y conflicts are always reported", "statement": "An expression is accepted only if no two distinct nodes or choices share a name and at most one node is marked as X and one as y; conversely an expression satisfying this is never rejected for a conflict.", "quantifier": "all expression graphs", "why_tests_cant": "All graphs and namings.", "anchors": ["skrub/_expressions/_evaluation.py:_FindConflicts", "skrub/_expressions/_evaluation.py:find_conflicts"]}
{"id": "C38", "title": "Dataset fetching survives crashes", "statement": "If a process fetching a dataset is killed at any point, any number of times, a later successful fetch (in a single process at a time) returns the complete and verified dataset; local corruption of the archive is detected and repaired.", "quantifier": "all crash points, all sequences of crashed, failed and successful fetches, all download failures", "why_tests_cant": "Every crash point and history.", "anchors": ["skrub/datasets/_utils.py:load_dataset_files", "skrub/datasets/_utils.py:_extract_archive", "skrub/datasets/_utils.py:_stream_download"]}
{"id": "C39", "title": "Dataset fetching is safe under concurrency", "statement": "Two processes fetching the same dataset concurrently, one of which may be killed, never leave the cache in a state from which a later fetch silently returns an incomplete dataset.", "quantifier": "all interleavings of two processes and crashes", "why_tests_cant": "Every schedule.", "anchors": ["skrub/datasets/_utils.py:load_dataset_files"]}
{"id": "C40", "title": "Figshare downloads survive crashes", "statement": "If a figshare download is interrupted, a later fetch either completes the download or fails, but does not silently return a part of the table; and files of another dataset are never returned.", "quantifier": "all crash points, all dataset identifiers", "why_tests_cant": "Every crash point; identifiers that are prefixes of one another.", "anchors": ["skrub/datasets/_ken_embeddings.py:_fetch_figshare"]}
{"id": "C41", "title": "Report table headers tile the table", "statement": "In the HTML sample table of a (multi-)indexed dataframe, the header cells of each level have spans that sum to the number of rows (or columns) displayed, each cell stands exactly above the items sharing its value and all its parents' cells, neighbouring cells under the same parent differ, and the innermost level has one cell per item.", "quantifier": "all multi-indexes", "why_tests_cant": "All index contents and depths.", "anchors": ["skrub/_reporting/_sample_table.py:_multi_index_table_headers", "skrub/_reporting/_sample_table.py:_LevelCounter"]}
{"id": "C42", "title": "The report shows the right rows", "statement": "The sample table shows at most max(1, n_rows) rows: all rows when they fit, otherwise the first ceil(n/2) and the last floor(n/2) rows, without repetition and with an ellipsis exactly when rows are hidden.", "quantifier": "all numbers of rows and limits", "why_tests_cant": "Boundary cases over all sizes.", "anchors": ["skrub/_reporting/_sample_table.py:_pick_slice_sizes", "skrub/_reporting/_table_report.py:TableReport.__init__"]}
{"id": "C43", "title": "Unpatching restores the original display", "statement": "After any sequence of patch_display/unpatch_display calls ending with unpatch_display, dataframes are displayed with their original methods.", "quantifier": "all sequences of calls", "why_tests_cant": "All histories.", "anchors": ["skrub/_reporting/_patching.py:_patch", "skrub/_reporting/_patching.py:_unpatch"]}
{"id": "C44", "title": "Plotting restores matplotlib settings", "statement": "Whatever a plotting function does, including raising, all the matplotlib settings changed for skrub plots have their previous values afterwards.", "quantifier": "all settings, all plotting functions", "why_tests_cant": "All exceptions.", "anchors": ["skrub/_reporting/_plotting.py:_plot"]}
{"id": "C45", "title": "Histograms account for every value", "statement": "The histogram range lies between the smallest and largest value, and the numbers of low outliers, displayed values and high outliers add up to the number of values.", "quantifier": "all lists of values", "why_tests_cant": "All distributions.", "anchors": ["skrub/_reporting/_plotting.py:_get_range", "skrub/_reporting/_plotting.py:_robust_hist"]}
{"id": "C46", "title": "String similarity is a symmetric score in [0, 1]", "statement": "The n-gram similarity of two strings is symmetric, lies between 0 and 1, and equals 1 for identical strings, whenever at least one of the strings has an n-gram.", "quantifier": "all pairs of strings and all n", "why_tests_cant": "All strings.", "anchors": ["skrub/_string_distances.py:ngram_similarity", "skrub/_string_distances.py:get_ngrams"]}
{"id": "C47", "title": "SimilarityEncoder values are similarities", "statement": "Every value output by SimilarityEncoder lies in [0, 1], and a value equal to a category has similarity 1 with it. With handle_unknown='error', a column with other values than the categories is refused.", "quantifier": "all strings, categories and ngram ranges", "why_tests_cant": "Short strings combined with long n-gram ranges are not tested.", "anchors": ["skrub/_similarity_encoder.py:_ngram_similarity_one_sample_inplace", "skrub/_string_distances.py:get_ngram_count"]}
{"id": "C48", "title": "MinHash reflects substring inclusion and uses the whole string", "statement": "With the fast hash, if a string contains another as a substring then each component of its hash is at most that of the substring (when the substring is at least as long as the longest n-gram); the hash takes into account every character and every n-gram length of ngram_range.", "quantifier": "all strings (including non-ASCII), all ngram ranges, all seeds", "why_tests_cant": "All strings; non-ASCII inputs and degenerate ranges are rarely tested.", "anchors": ["skrub/_fast_hash.py:ngram_min_hash"]}
{"id": "C49", "title": "Deduplication is a consistent translation to the most frequent spelling", "statement": "deduplicate returns as many values as given, replaces each word by a word of the same cluster that is at least as frequent, replaces equal words equally, never invents words, and is idempotent as a translation.", "quantifier": "all word lists and all clusterings", "why_tests_cant": "All data and clusterings.", "anchors": ["skrub/_deduplicate.py:_create_spelling_correction", "skrub/_deduplicate.py:deduplicate"]}
{"id": "C50", "title": "DatetimeEncoder's advertised outputs are its outputs", "statement": "The feature names advertised by a fitted DatetimeEncoder are, in order, the names of the columns it outputs, for every combination of its parameters.", "quantifier": "all parameter combinations and columns", "why_tests_cant": "Combination of resolution, periodic encoding and extra features.", "anchors": ["skrub/_datetime_encoder.py:DatetimeEncoder.fit_transform", "skrub/_datetime_encoder.py:DatetimeEncoder.transform"]}
{"id": "C51", "title": "Numbered feature names are distinct and sort in numerical order", "statement": "Feature names generated by MinHashEncoder and TextEncoder are pairwise distinct, have the same length, and their alphabetical order is the order of the components.", "quantifier": "all numbers of components", "why_tests_cant": "Unbounded number of components.", "anchors": ["skrub/_minhash_encoder.py:MinHashEncoder.get_feature_names_out", "skrub/_text_encoder.py:TextEncoder.get_feature_names_out"]}
{"id": "C52", "title": "Refitting a string or text encoder forgets the previous fit", "statement": "After refitting a StringEncoder or TextEncoder, transform behaves as for a fresh encoder fitted on the last data: in particular it outputs as many columns as advertised.", "quantifier": "all pairs of successive fits", "why_tests_cant": "Depends on histories of fits with data of different sizes.", "anchors": ["skrub/_string_encoder.py:StringEncoder", "skrub/_text_encoder.py:TextEncoder"]}
{"id": "C53", "title": "GapEncoder.transform is row-wise and does not change the encoder", "statement": "Transforming with a GapEncoder leaves its fitted state unchanged, and each row's encoding depends only on the fitted state and that row's string, not on other rows, batch size or earlier transforms.", "quantifier": "all histories of transform/score calls, all columns", "why_tests_cant": "All histories.", "anchors": ["skrub/_gap_encoder.py:GapEncoder._transform", "skrub/_gap_encoder.py:GapEncoder._add_unseen_keys_to_H_dict"]}
{"id": "C54", "title": "GapEncoder.partial_fit accumulates", "statement": "After several partial_fit calls the topics reflect all batches seen, whatever the vectorizer used (hashing or not).", "quantifier": "all sequences of partial_fit calls", "why_tests_cant": "Depends on histories and on the hashing option.", "anchors": ["skrub/_gap_encoder.py:GapEncoder.partial_fit"]}
{"id": "C55", "title": "Association scores are bounded, symmetric and complete", "statement": "The Cramer's V reported for each pair of columns lies in [0, 1] and does not depend on the order of the two columns; every unordered pair of distinct columns is reported exactly once, by decreasing score.", "quantifier": "all tables", "why_tests_cant": "All contingency tables.", "anchors": ["skrub/_column_associations.py:_compute_cramer", "skrub/_column_associations.py:_stack_symmetric_associations"]}
{"id": "C56", "title": "Columns are dropped exactly when they have too many nulls", "statement": "DropIfTooManyNulls drops a column at fit exactly when its fraction of nulls exceeds the threshold (or all values are null when the threshold is 1), never when the threshold is None; lowering the threshold never keeps more columns; transform repeats the decision of fit whatever the data; invalid thresholds are rejected.", "quantifier": "all columns and thresholds", "why_tests_cant": "Boundary fractions.", "anchors": ["skrub/_drop_if_too_many_nulls.py:DropIfTooManyNulls"]}
{"id": "C57", "title": "Null-string cleaning is exact and idempotent", "statement": "Cleaning null strings turns a value into a null exactly when it is blank or one of the listed null markers, leaves every other value unchanged, and cleaning twice is the same as once.", "quantifier": "all strings", "why_tests_cant": "All strings.", "anchors": ["skrub/_clean_null_strings.py:CleanNullStrings"]}
{"id": "C58", "title": "Synthetic misspellings can affect every entry", "statement": "make_deduplication_data introduces mistakes with the given probability in each letter of each generated entry.", "quantifier": "all examples, entry counts and random draws", "why_tests_cant": "Random generation.", "anchors": ["skrub/datasets/_generating.py:make_deduplication_data"]}
{"id": "C59", "title": "Sub-frame application advertises the names it outputs", "statement": "After applying a transformer to a sub-dataframe, the advertised output feature names are exactly the column names of the transformed dataframe, in the same order.", "quantifier": "all dataframes (any distinct column names), selectors, transformers", "why_tests_cant": "Names with embedded tags are never tried.", "anchors": ["skrub/_on_subframe.py:OnSubFrame.fit_transform", "skrub/_on_subframe.py:OnSubFrame.get_feature_names_out"]}
{"id": "C60", "title": "TableVectorizer.transform reproduces the fitted schema", "statement": "For every table accepted by transform, the output columns have exactly the names (and order) of the table produced at fit, provided each transformer produces a fixed number of columns; and transforming the training table gives the same table as fit_transform if each single-column transformer has this property.", "quantifier": "all fitted TableVectorizers (any preprocessors, encoders, specific transformers), all later tables", "why_tests_cant": "Chains an unbounded number of column-wise steps over arbitrary transformers and tables.", "anchors": ["skrub/_table_vectorizer.py:TableVectorizer.transform", "skrub/_on_each_column.py:OnEachColumn.transform"]}
{"id": "C61", "title": "TableVectorizer accepts every column name", "statement": "Fitting a TableVectorizer on a table with distinct string column names, with transformers that do not raise, succeeds whatever the names are.", "quantifier": "all tables with distinct string names", "why_tests_cant": "Needs particular names that look like the tags generated by the library.", "anchors": ["skrub/_table_vectorizer.py:TableVectorizer._store_processing_steps", "skrub/_utils.py:renaming_func", "skrub/_join_utils.py:pick_column_names"]}
{"id": "C62", "title": "Choices that are not active do not matter", "statement": "Two settings of the choices of an expression that agree on the active choices (those not nested in an outcome that is not selected, directly or through match) give the same result in every mode other than preview; hence each setting of the choices is equivalent to one in the parameter grid of the expression.", "quantifier": "all expressions without circular references, all nestings of choices and matches, all settings, data and fitted states", "why_tests_cant": "Exponentially many settings of arbitrarily nested choices.", "anchors": ["skrub/_expressions/_evaluation.py:_ChoiceGraph", "skrub/_expressions/_evaluation.py:choice_graph", "skrub/_expressions/_evaluation.py:_Evaluator.handle_choice"]}
{"id": "C63", "title": "Expressions are checked and previewed when they are created", "statement": "Calling a deferred function or a method of an expression raises ValueError when two nodes of the new expression have the same name or mark, TypeError when it is given a dataframe that is not wrapped, RuntimeError when its preview fails for another reason than a variable without value; otherwise the value of the expression in preview mode is stored in it, and nothing is stored for other nodes or modes.", "quantifier": "all expressions without circular references, all functions, all previews already stored", "why_tests_cant": "Arbitrary graphs and stored previews.", "anchors": ["skrub/_expressions/_expressions.py:check_expr", "skrub/_expressions/_expressions.py:_find_dataframe", "skrub/_expressions/_evaluation.py:find_arg"]}
{"id": "C64", "title": "DatetimeEncoder extracts the requested features of each entry", "statement": "For every valid choice of parameters, DatetimeEncoder outputs the requested levels (not below the day for dates), the extra features, and the sine and cosine or the splines of the periodic ones; each output column has, for each entry, a value computed from this entry alone, and is null exactly where the entry is null; later calls of transform compute the same columns as the fit.", "quantifier": "all parameter combinations, columns, later columns", "why_tests_cant": "Hundreds of parameter combinations over arbitrary columns.", "anchors": ["skrub/_datetime_encoder.py:DatetimeEncoder.fit_transform", "skrub/_datetime_encoder.py:DatetimeEncoder.transform"]}
{"id": "C65", "title": "GapEncoder outputs one column per topic with distinct names", "statement": "GapEncoder.transform outputs n_components columns, whose names are distinct and are those of get_feature_names_out, each with one value per row.", "quantifier": "all fitted encoders and columns, all orders of the words in the topics", "why_tests_cant": "Names that collide depend on which words dominate the topics.", "anchors": ["skrub/_gap_encoder.py:GapEncoder.transform", "skrub/_gap_encoder.py:GapEncoder.get_feature_names_out"]}
{"id": "C66", "title": "GapEncoder.score has no effect on later outputs", "statement": "Scoring a column with a fitted GapEncoder changes neither the topics, nor the values that transform outputs later, nor the names of its columns.", "quantifier": "all fitted encoders and columns", "why_tests_cant": "All histories of calls.", "anchors": ["skrub/_gap_encoder.py:GapEncoder.score", "skrub/_gap_encoder.py:GapEncoder._add_unseen_keys_to_H_dict"]}
{"id": "C67", "title": "Fitting a GapEncoder again forgets the previous fits", "statement": "Whatever calls of fit, partial_fit, transform and score an encoder went through, after fit on a column its outputs and names are those of a new encoder with the same parameters fitted on this column.", "quantifier": "all encoders, all columns, seeds given as numbers", "why_tests_cant": "All histories of calls.", "anchors": ["skrub/_gap_encoder.py:GapEncoder.fit", "skrub/_gap_encoder.py:GapEncoder._init_vars"]}
{"id": "C68", "title": "ToDatetime converts a whole column or rejects it", "statement": "ToDatetime.fit_transform returns a column of datetimes unchanged; a column of strings is either converted, with all its entries that are not null parsed with one format (the given one, or the one guessed for all entries of the sample), or rejected; all other columns are rejected, and no other exception is raised. The function to_datetime never fails on a column: it returns the converted column, or the column itself.", "quantifier": "all columns, formats, samples, behaviours of the parsers", "why_tests_cant": "Arbitrary columns and samples.", "anchors": ["skrub/_to_datetime.py:ToDatetime.fit_transform", "skrub/_to_datetime.py:to_datetime"]}
{"id": "C69", "title": "ToDatetime recognises day-first columns", "statement": "A column of strings that all look like dates in the same day-first format, one of which cannot be read month first, is converted with this format.", "quantifier": "all lengths of columns, all random samples", "why_tests_cant": "The result depends on a random sample of 30 entries.", "anchors": ["skrub/_to_datetime.py:_guess_datetime_format", "skrub/_to_datetime.py:ToDatetime._get_datetime_format"]}
{"id": "C70", "title": "ToDatetime.transform always outputs the fitted datetime type", "statement": "After a fit, transform outputs, for every column of datetimes or strings, a column with the resolution and time zone of the output of the fit: datetimes keep their instant (rounded down to the resolution), strings are parsed with the format of the fit and become null when that fails. On the column of the fit it repeats the output of the fit.", "quantifier": "all pairs of fitted and later columns, with any resolutions and time zones", "why_tests_cant": "Arbitrary pairs of column types.", "anchors": ["skrub/_to_datetime.py:ToDatetime.transform", "skrub/_to_datetime.py:_convert_time_zone"]}
{"id": "C71", "title": "A rejected fit leaves ToDatetime as it was", "statement": "When ToDatetime.fit_transform rejects a column, the converter behaves afterwards as it did before.", "quantifier": "all earlier histories, all rejected columns", "why_tests_cant": "All histories of calls.", "anchors": ["skrub/_to_datetime.py:ToDatetime.fit_transform"]}
{"id": "C72", "title": "Reports count nulls exactly", "statement": "A report gives each column of a table, whatever its type and content, a summary whose null_count is the number of its null entries; its level is ok exactly when there is none, and critical exactly when the table has rows and all entries are null.", "quantifier": "all columns of pandas and polars, all numbers of rows", "why_tests_cant": "Arbitrary contents of columns.", "anchors": ["skrub/_reporting/_summarize.py:_summarize_column", "skrub/_reporting/_summarize.py:_add_nulls_summary"]}
{"id": "C73", "title": "Reports count distinct values exactly", "statement": "The n_unique of the summary of a column is the number of distinct values among its entries that are not null.", "quantifier": "all columns of pandas and polars with some value", "why_tests_cant": "Arbitrary contents of columns.", "anchors": ["skrub/_reporting/_summarize.py:_summarize_column", "skrub/_reporting/_summarize.py:_add_value_counts", "skrub/_dataframe/_common.py:n_unique"]}
{"id": "C74", "title": "Reports recognise constant columns", "statement": "A column is reported as constant exactly when its entries that are not null all have the same value and there is at least one; this value is the constant_value of the summary.", "quantifier": "all columns of pandas and polars", "why_tests_cant": "Arbitrary contents of columns.", "anchors": ["skrub/_reporting/_summarize.py:_add_value_counts", "skrub/_reporting/_summarize.py:_add_numeric_summary", "skrub/_reporting/_summarize.py:_add_datetime_summary"]}
{"id": "C75", "title": "Reports list the most frequent values", "statement": "The value_counts of the summary of a column are distinct values with their numbers of occurrences, in decreasing order; there are as many as distinct values, but at most 10, and no other value is more frequent.", "quantifier": "all columns that are not numbers, dates or durations", "why_tests_cant": "Arbitrary contents of columns.", "anchors": ["skrub/_reporting/_summarize.py:_add_value_counts", "skrub/_reporting/_utils.py:top_k_value_counts"]}
{"id": "C76", "title": "Quantiles in reports are ordered values of the column", "statement": "The quantiles of the summary of a column of numbers or durations (converted to the unit of the summary) are values of the column, in increasing order, the first and last are its extrema and differ; the inter-quartile range is not negative. They are given exactly when the column has a value and is not reported as constant. The unit of a column of durations suits one of them: it is at least one such unit long, and shorter than the next one (microseconds suit all durations below a millisecond).", "quantifier": "all columns of numbers or durations, any rule to round positions to a nearest one", "why_tests_cant": "Arbitrary contents of columns.", "anchors": ["skrub/_reporting/_summarize.py:_add_numeric_summary", "skrub/_reporting/_utils.py:quantiles", "skrub/_reporting/_utils.py:duration_to_numeric"]}
{"id": "C77", "title": "Summaries do not depend on the order of rows", "statement": "Two tables with the same rows in different orders have the same summaries: same counts, proportions, levels, constants, extrema, quantiles; among equally frequent values only, those that are listed may differ. In particular the column given to order_by changes nothing but the plots.", "quantifier": "all tables, all permutations of the rows", "why_tests_cant": "All permutations of the rows.", "anchors": ["skrub/_reporting/_summarize.py:summarize_dataframe", "skrub/_reporting/_summarize.py:_summarize_column"]}
{"id": "C78", "title": "The table of results of a search has one row per candidate, best first", "statement": "The results_ and detailed_results_ of a fitted search have one row per candidate, in decreasing order of the first metric (the one used to refit, if it is given), with NaN last and candidates with the same score in the order in which they were tried. Each row holds the scores of its candidate and, for each choice, the outcome it used (its name if it has one), or a missing value if the choice was not used; columns of choices have the names of the choices unless these are those of scores or have already been renamed by skrub.", "quantifier": "all sets of choices, all candidates (nested choices are missing in some), all scores, one or several metrics", "why_tests_cant": "All choices and all candidates.", "anchors": ["skrub/_expressions/_estimator.py:ParamSearch._get_cv_results_table"]}
{"id": "C79", "title": "The results of a search can be plotted", "statement": "plot_results succeeds on each fitted search for which some candidate has at least the score min_score.", "quantifier": "all sets of choices, all candidates, all scores, one or several metrics, all min_score", "why_tests_cant": "All choices and all candidates.", "anchors": ["skrub/_expressions/_estimator.py:ParamSearch.plot_results", "skrub/_expressions/_parallel_coord.py:_prepare_obj_column", "skrub/_expressions/_parallel_coord.py:get_parallel_coord_data"]}
{"id": "C80", "title": "Plots of results can be read", "statement": "In the plot of results, the tick that is nearest to the line of a candidate on the axis of a choice is that of its outcome (or Null); on the axis of a numeric choice, candidates without a value are apart from those that have one.", "quantifier": "all columns, all random draws for the jitter", "why_tests_cant": "All columns and all random draws.", "anchors": ["skrub/_expressions/_parallel_coord.py:_add_jitter", "skrub/_expressions/_parallel_coord.py:_prepare_obj_column", "skrub/_expressions/_parallel_coord.py:_prepare_numeric_column"]}
{"id": "C81", "title": "Transforming the training data gives what fitting returned", "statement": "After fit_transform on some data, transform on the same data gives the same result, for a pipeline of steps created with .skb.apply (transformers and predictors in any order), provided this holds for each transformer by itself. The parameters of the steps do not change.", "quantifier": "all pipelines of applied estimators, all data, whatever was fitted before", "why_tests_cant": "All pipelines and all data; fitted predictors in the middle of a pipeline take another path than transformers.", "anchors": ["skrub/_expressions/_expressions.py:Apply.compute"]}
{"id": "C82", "title": "The final estimator predicts from the data it was fitted on", "statement": "When predict, predict_proba, decision_function or score is called on the data on which a pipeline was fitted, its final estimator gets the very table (or array) on which it was fitted.", "quantifier": "all pipelines of applied estimators, all data, all methods", "why_tests_cant": "All pipelines; which method an intermediate step runs depends on the attributes of its estimator and on the kind of data.", "anchors": ["skrub/_expressions/_expressions.py:Apply.compute", "skrub/_expressions/_expressions.py:Apply.supported_modes"]}
{"id": "C83", "title": "An estimator that can be fitted on the data can be fitted in a pipeline", "statement": "If an estimator can be fitted by itself on the input and the targets of an apply step (and then predict, if it is not a transformer), then the step can be fitted.", "quantifier": "all estimators, tables or arrays as inputs, columns, tables or arrays as targets, supervised or not", "why_tests_cant": "All combinations of kinds of inputs, targets and estimators.", "anchors": ["skrub/_expressions/_expressions.py:Apply.compute", "skrub/_expressions/_expressions.py:_wrap_estimator"]}
{"id": "C84", "title": "Predictions inside a pipeline are a table with one column per target", "statement": "Applied to a dataframe, the result of a step with a predictor is a dataframe like it with one column of predictions per target, named after the targets (y, or y0, y1... if they have no names); after fitting, results for other dataframes have the same names.", "quantifier": "all predictors, all targets, all dataframes", "why_tests_cant": "All shapes and names of targets.", "anchors": ["skrub/_expressions/_expressions.py:Apply.compute"]}
{"id": "C85", "title": "Options of apply are honoured or refused", "statement": "The options cols, how and allow_reject of .skb.apply are honoured as documented, or an error is raised: the estimator is applied to the columns asked; how can be auto, columnwise, subframe or full_frame; with allow_reject the estimator is applied to each column and can reject some.", "quantifier": "all estimators, all data, all values of the options", "why_tests_cant": "All combinations of options, estimators and data.", "anchors": ["skrub/_expressions/_expressions.py:_wrap_estimator", "skrub/_expressions/_expressions.py:_check_wrap_params", "skrub/_wrap_transformer.py:wrap_transformer", "skrub/_expressions/_skrub_namespace.py:SkrubNamespace.apply"]}
{"id": "C86", "title": "An estimator answers from its last fit", "statement": "What transform, predict, predict_proba, decision_function and score of an estimator obtained from an expression answer, after a successful fit, is what an estimator that was never fitted before would answer after the same fit, whatever was fitted, reported or failed before, and whatever was used in between.", "quantifier": "all expressions, all histories of calls before the last fit, all uses after it, all environments", "why_tests_cant": "Arbitrary histories of calls; fitted attributes are kept by the nodes of the graph between calls.", "anchors": ["skrub/_expressions/_estimator.py:ExprEstimator.fit", "skrub/_expressions/_estimator.py:ExprEstimator._eval_in_mode", "skrub/_expressions/_evaluation.py:evaluate"]}
{"id": "C87", "title": "An estimator is marked as fitted exactly when it has been fitted", "statement": "The methods that use an estimator raise NotFittedError (and change nothing) until a fit has succeeded; once it has, a later fit that fails leaves the estimator as it was.", "quantifier": "all expressions, all histories of calls, all environments", "why_tests_cant": "Arbitrary histories of calls, including failed ones.", "anchors": ["skrub/_expressions/_estimator.py:ExprEstimator._eval_in_mode", "skrub/_expressions/_estimator.py:ExprEstimator.report", "skrub/_expressions/_estimator.py:ExprEstimator.__sklearn_is_fitted__"]}
{"id": "C88", "title": "Using an estimator changes nothing", "statement": "Calls other than fit and fit_transform, and reports in the corresponding modes, do not change any fitted attribute nor what later calls answer, on the estimator, on its sub-estimators or on the estimator it was taken from, whether they succeed or not.", "quantifier": "all expressions, all histories of calls, all environments", "why_tests_cant": "Arbitrary histories of calls; evaluation stores results and errors in the nodes.", "anchors": ["skrub/_expressions/_estimator.py:ExprEstimator.__getattr__", "skrub/_expressions/_estimator.py:ExprEstimator.report", "skrub/_expressions/_evaluation.py:evaluate"]}
{"id": "C89", "title": "A sub-estimator is the part of the estimator with the given name", "statement": "sub_estimator(name) raises KeyError if no part of the expression has that name; otherwise it gives an estimator for a part with that name, fitted if the original one is. It is another estimator: neither changes when the other one is used or fitted.", "quantifier": "all expressions, all histories of calls, all names", "why_tests_cant": "All graphs and all histories of calls.", "anchors": ["skrub/_expressions/_estimator.py:ExprEstimator.sub_estimator", "skrub/_expressions/_evaluation.py:find_node_by_name"]}
{"id": "C90", "title": "A fitted estimator can be fed with the output of one of its steps", "statement": "Giving the output of the sub-estimator of a named step, under that name in the environment, leads to the same answer as giving the inputs of that step.", "quantifier": "all expressions, all named steps, all environments, all methods that use an estimator", "why_tests_cant": "All graphs: other parts may depend on the same inputs.", "anchors": ["skrub/_expressions/_evaluation.py:_Evaluator.handle_expr", "skrub/_expressions/_estimator.py:ExprEstimator.sub_estimator"]}
{"id": "C91", "title": "A report shows what the method answers", "statement": "report(mode=m) shows the result or the error of calling the method m with the same environment, and in a fitting mode it fits the estimator as that method does.", "quantifier": "all expressions, all histories of calls, all environments, all modes", "why_tests_cant": "Reports keep results during the evaluation while methods discard them; arbitrary histories of calls.", "anchors": ["skrub/_expressions/_estimator.py:ExprEstimator.report", "skrub/_expressions/_inspection.py:full_report", "skrub/_expressions/_evaluation.py:evaluate"]}
{"id": "C92", "title": "An estimator has the methods of its final step", "statement": "An estimator always has fit, fit_transform and transform. It has predict, predict_proba, decision_function or score if and only if the estimator applied by the step with which the expression ends, or else by one of the apply steps in use, has it (the fitted one once it is fitted); without apply steps in use it has none. Other methods raise AttributeError and change nothing.", "quantifier": "all expressions, all histories of calls, all choices that have been made", "why_tests_cant": "All graphs, with choices some steps are not in use.", "anchors": ["skrub/_expressions/_estimator.py:ExprEstimator.__getattr__", "skrub/_expressions/_evaluation.py:supported_modes", "skrub/_expressions/_evaluation.py:find_first_apply", "skrub/_expressions/_expressions.py:Apply.supported_modes"]}
{"id": "C93", "title": "Cleaned tables contain only strings, string categories, datetimes and numbers", "statement": "Every column of the output of Cleaner.fit_transform contains strings or nulls, or is categorical with distinct strings as categories, or contains datetimes or numbers. In the TableVectorizer, before columns are encoded, numbers are 32-bit floats. Tables are not refused as long as polars can convert their types to strings; a wrong drop_null_fraction leads to a ValueError.", "quantifier": "all tables of pandas and polars, all types of columns and entries, all values of drop_null_fraction", "why_tests_cant": "All types and entries of columns; what one step gives decides what the next ones do.", "anchors": ["skrub/_table_vectorizer.py:Cleaner.fit_transform", "skrub/_table_vectorizer.py:TableVectorizer._make_pipeline", "skrub/_to_float32.py:ToFloat32", "skrub/_to_str.py:ToStr", "skrub/_clean_categories.py:CleanCategories"]}
{"id": "C94", "title": "Later tables are cleaned to the types of the fit", "statement": "transform of a fitted Cleaner or TableVectorizer (before it encodes the columns) gives the same columns as its fit, and each has the same kind: strings, string categories, datetimes with the same type, or numbers.", "quantifier": "all tables for the fit, all tables with the same columns, of any types, for transform", "why_tests_cant": "All pairs of tables, also with types that differ.", "anchors": ["skrub/_table_vectorizer.py:Cleaner.transform", "skrub/_table_vectorizer.py:TableVectorizer.transform", "skrub/_on_each_column.py:OnEachColumn.transform"]}
{"id": "C95", "title": "Cleaning keeps nulls, and makes null only what stands for a null", "statement": "An entry of a cleaned column is null if and only if it was null or was a text that stands for a null in a column of texts; for the TableVectorizer also texts read as NaN become null. Other texts of columns that remain columns of strings do not change.", "quantifier": "all tables, all entries, all values of drop_null_fraction", "why_tests_cant": "All types and entries: nulls have several representations, and conversions treat them differently.", "anchors": ["skrub/_table_vectorizer.py:Cleaner.fit_transform", "skrub/_dataframe/_common.py:to_float32", "skrub/_dataframe/_common.py:to_string", "skrub/_clean_categories.py:CleanCategories.fit_transform"]}
{"id": "C96", "title": "Categories become their texts", "statement": "CleanCategories accepts exactly categorical columns. Each entry of the output is the text of the entry of the input, categories are distinct strings, and unless two categories have the same text their order is kept. Once fitted, it makes such a column out of any column whose entries can be hashed.", "quantifier": "all categorical columns, with categories of any type; all columns for transform", "why_tests_cant": "All categories, also of mixed types or with the same text.", "anchors": ["skrub/_clean_categories.py:CleanCategories", "skrub/_clean_categories.py:_with_string_categories", "skrub/_dataframe/_common.py:to_categorical"]}
{"id": "C97", "title": "Cleaning the data of the fit again gives the same output", "statement": "transform of a Cleaner, or of the TableVectorizer before it encodes columns, gives for the table of the fit what fit_transform gave.", "quantifier": "all tables, all values of drop_null_fraction", "why_tests_cant": "All tables; at fit and at transform different code converts the columns.", "anchors": ["skrub/_table_vectorizer.py:Cleaner.transform", "skrub/_on_each_column.py:OnEachColumn.transform"]}
{"id": "C98", "title": "The list of processing steps of a column is what is applied to it", "statement": "all_processing_steps_ has exactly one list for each column of the input, and transform does to each column exactly what the steps of its list do, in that order, and fails only if one of them does.", "quantifier": "all tables for the fit, all later tables", "why_tests_cant": "All tables; steps are chosen by the content of columns, one after the other.", "anchors": ["skrub/_table_vectorizer.py:Cleaner.fit_transform", "skrub/_table_vectorizer.py:TableVectorizer._store_processing_steps"]}
{"id": "C99", "title": "Cleaning a clean table changes nothing", "statement": "Fitting a Cleaner, with the same drop_null_fraction, on the output of a Cleaner gives that output again.", "quantifier": "all tables, all values of drop_null_fraction", "why_tests_cant": "All types and entries: what a column became can be treated differently from what it was.", "anchors": ["skrub/_table_vectorizer.py:Cleaner.fit_transform", "skrub/_to_str.py:ToStr.fit_transform", "skrub/_to_datetime.py:ToDatetime.fit_transform"]}
{"id": "C100", "title": "Copies of an expression have the same choices", "statement": "A copy of an expression (made by get_estimator, a search, or scikit-learn's clone) has the same choices with the same numbers and names and the same parameter grid as the expression, or looking for them fails with the same exception.", "quantifier": "all expressions, of any shape and size", "why_tests_cant": "All shapes of expressions: copies are made recursively and shared parts are copied once; keys of mappings are not copied.", "anchors": ["skrub/_expressions/_evaluation.py:clone", "skrub/_expressions/_evaluation.py:choice_graph", "skrub/_expressions/_evaluation.py:choices", "skrub/_expressions/_evaluation.py:param_grid"]}
{"id": "C101", "title": "Cross-validation works on the values of the nodes marked as X and y", "statement": "The X and y which are split, cross-validated or searched on are the values of the nodes marked with mark_as_X and mark_as_y for the given environment; y is missing only if no node is marked or its value is None; nodes both depend on are computed once.", "quantifier": "all expressions, all environments", "why_tests_cant": "All expressions: X and y are computed in a copy, one after the other, and may share parts.", "anchors": ["skrub/_expressions/_estimator.py:_compute_Xy", "skrub/_expressions/_estimator.py:_find_Xy", "skrub/_expressions/_evaluation.py:find_X", "skrub/_expressions/_evaluation.py:find_y"]}
{"id": "C102", "title": "Splits do not leak", "statement": "train_test_split gives environments which are the original one plus the training or testing part of X and y. What is then computed with the training environment does not depend on the testing part: if two datasets have the same training X and y, and agree on what is used besides X and y, results are the same.", "quantifier": "all expressions, all pairs of environments, all splitters, all methods", "why_tests_cant": "About pairs of datasets, and all expressions.", "anchors": ["skrub/_expressions/_estimator.py:train_test_split", "skrub/_expressions/_estimator.py:_compute_Xy", "skrub/_expressions/_evaluation.py:evaluate"]}
{"id": "C103", "title": "The best estimator of a search is the estimator with the best parameters fitted on the data", "statement": "After fitting a search that refits, the methods of the search give the same answers as an estimator of the expression with the best parameters set, fitted on the same environment.", "quantifier": "all expressions with choices, all environments, all outcomes of the cross-validation, all later inputs and methods", "why_tests_cant": "All expressions and data: the search works on copies, on numbered choices, and on X and y computed beforehand.", "anchors": ["skrub/_expressions/_estimator.py:ParamSearch.fit", "skrub/_expressions/_estimator.py:ParamSearch._call_predictor_method", "skrub/_expressions/_estimator.py:_XyExprEstimator", "skrub/_expressions/_evaluation.py:set_params", "skrub/_expressions/_estimator.py:ParamSearch.__getattr__"]}
{"id": "C104", "title": "A search answers for its last successful fit", "statement": "Before a successful fit, methods of a search fail, with NotFittedError if the search has the method. After a successful fit the answers are those of the estimator refitted by this fit, whatever happened before, and whatever failing fits and uses happen later.", "quantifier": "all sequences of fits (successful or not, with or without refit) and uses", "why_tests_cant": "All histories of calls.", "anchors": ["skrub/_expressions/_estimator.py:ParamSearch.fit", "skrub/_expressions/_estimator.py:ParamSearch._call_predictor_method", "skrub/_expressions/_estimator.py:_copy_attr"]}
{"id": "C105", "title": "A deferred function is called on the values of the expressions it uses", "statement": "Evaluating the call of a deferred function gives what the function gives when the expressions and choices in its arguments, defaults, global variables and variables of enclosing functions are replaced with their values, or fails with the error of one of them.", "quantifier": "all functions (any parameters, variables and defaults) and arguments, at any depth of nested containers and estimators", "why_tests_cant": "All signatures and all ways a function refers to expressions; the function is rebuilt with other variables and defaults.", "anchors": ["skrub/_expressions/_expressions.py:deferred", "skrub/_expressions/_expressions.py:Call.compute", "skrub/_expressions/_evaluation.py:needs_eval"]}
{"id": "C106", "title": "A deferred function that uses no expression is called as it is", "statement": "If nothing a function refers to contains an expression, the evaluation of its deferred call is the call of the function itself, with the values its variables have at that time, on the values of the arguments.", "quantifier": "all functions and bound methods, all later changes of variables, all arguments", "why_tests_cant": "All functions and all states of the variables at the time of the evaluation.", "anchors": ["skrub/_expressions/_expressions.py:deferred", "skrub/_expressions/_expressions.py:Call.compute"]}
{"id": "C107", "title": "Any function can be made deferred", "statement": "deferred accepts any function, and gives back what it is given if that is already deferred or an expression.", "quantifier": "all functions, all values of the variables they use", "why_tests_cant": "All functions and states of variables, also of functions nested in others.", "anchors": ["skrub/_expressions/_expressions.py:deferred", "skrub/_expressions/_evaluation.py:needs_eval"]}
{"id": "C108", "title": "Plain objects reach functions unchanged and are accepted in environments", "statement": "Arguments of deferred functions, values of as_expr and arguments of operators which contain no expression are passed as they are; an environment is accepted unless it contains an expression or a choice.", "quantifier": "all objects: containers of any class nested to any depth, estimators fitted or not", "why_tests_cant": "All objects: containers and estimators are rebuilt on the way.", "anchors": ["skrub/_expressions/_evaluation.py:_ExprTraversal.handle_seq", "skrub/_expressions/_evaluation.py:_ExprTraversal.handle_mapping", "skrub/_expressions/_evaluation.py:_ExprTraversal.handle_estimator", "skrub/_expressions/_evaluation.py:_check_environment"]}
{"id": "C109", "title": "The graph of an expression shows each step and each link once", "statement": "The graph of an expression and its drawing contain each step exactly once, and link two steps exactly when one uses the other, directly or inside containers and estimators; in the numbering, inputs come before the steps that use them.", "quantifier": "all expressions that do not contain themselves: any sharing, any nesting of containers, choices and estimators", "why_tests_cant": "All graph shapes; tests draw a few small graphs.", "anchors": ["skrub/_expressions/_evaluation.py:_Graph", "skrub/_expressions/_evaluation.py:_simplify_graph", "skrub/_expressions/_inspection.py:draw_expr_graph"]}
{"id": "C110", "title": "The list of steps names each step once, after those it uses", "statement": "describe_steps has a line for each step, after the lines of the steps it uses, and marks those that were listed before; its length is proportional to the number of steps.", "quantifier": "all expressions that do not contain themselves", "why_tests_cant": "All graph shapes; the number of lines can only be seen to grow on families of expressions of unbounded size.", "anchors": ["skrub/_expressions/_evaluation.py:_Printer", "skrub/_expressions/_evaluation.py:describe_steps"]}
{"id": "C111", "title": "Creating and inspecting an expression takes time proportional to its size", "statement": "The number of iterations of the traversals run when an expression is created, listed or described is proportional to the number of its objects.", "quantifier": "all expressions, of any size", "why_tests_cant": "A statement about the growth of costs with the size.", "anchors": ["skrub/_expressions/_evaluation.py:_ExprTraversal.run", "skrub/_expressions/_evaluation.py:find_conflicts", "skrub/_expressions/_evaluation.py:nodes"]}
{"id": "C112", "title": "Drawings can show any name", "statement": "The labels of drawings are well formed and display the description and the name of the step, whatever they contain.", "quantifier": "all descriptions and names", "why_tests_cant": "All strings, including those with markup characters.", "anchors": ["skrub/_expressions/_inspection.py:_node_kwargs"]}
{"id": "C113", "title": "Evaluating on the example data reproduces the preview", "statement": "get_data gives the example value of every variable that has one, and nothing else; evaluating an expression on it gives the same result or failure as evaluating its preview.", "quantifier": "all expressions without eval_mode and preset choices, all states left by earlier evaluations", "why_tests_cant": "All expressions: previews are kept from the creation of each step while the evaluation recomputes everything in another mode.", "anchors": ["skrub/_expressions/_skrub_namespace.py:SkrubNamespace.get_data", "skrub/_expressions/_skrub_namespace.py:SkrubNamespace.eval", "skrub/_expressions/_evaluation.py:evaluate"]}
{"id": "C114", "title": "An environment given for evaluation replaces the example data", "statement": "When an environment is given, the result of eval, and of the report, is computed from it: the example values given when variables were created do not matter.", "quantifier": "all expressions, all pairs of example data, all environments", "why_tests_cant": "Says that a result does not depend on some inputs, for all environments including incomplete ones.", "anchors": ["skrub/_expressions/_skrub_namespace.py:SkrubNamespace.eval", "skrub/_expressions/_skrub_namespace.py:_var_values_provided", "skrub/_expressions/_skrub_namespace.py:SkrubNamespace.full_report", "skrub/_expressions/_expressions.py:Var.compute"]}
{"id": "C115", "title": "Naming, describing or marking a step does not change it", "statement": "set_name, set_description, mark_as_X and mark_as_y return a new expression which evaluates to the same results, has the preview of the original and can be used as it; the original is left unchanged. A value given under the new name or for X or y replaces the step.", "quantifier": "all expressions, all environments and modes", "why_tests_cant": "All expressions and environments; what must not change is everything else.", "anchors": ["skrub/_expressions/_skrub_namespace.py:SkrubNamespace.set_name", "skrub/_expressions/_skrub_namespace.py:SkrubNamespace.mark_as_X", "skrub/_expressions/_skrub_namespace.py:SkrubNamespace.applied_estimator", "skrub/_expressions/_expressions.py:ExprImpl.__copy__"]}
{"id": "C116", "title": "Operators and calls on expressions apply to their values", "statement": "If an operand of a binary operator is an expression, the result is an expression whose value is that of the operator on the values of the operands in the order in which they were written; the value of a call is that of calling the value of the expression.", "quantifier": "all operators, expressions, environments and modes", "why_tests_cant": "All operators and operands; python decides which operand's method is called.", "anchors": ["skrub/_expressions/_expressions.py:_make_bin_op", "skrub/_expressions/_expressions.py:_make_r_bin_op", "skrub/_expressions/_expressions.py:BinOp.compute", "skrub/_expressions/_expressions.py:Expr.__call__"]}
{"id": "C117", "title": "A TableVectorizer gives numbers", "statement": "If the encoders in use give numeric columns, every output column of a TableVectorizer contains 32-bit floats, or string categories if ToCategorical is one of the encoders; for each later table, whatever the types of its columns, there are as many output columns, with the same names, in the same order and of the same kinds.", "quantifier": "all tables, all later tables that are accepted, all thresholds for nulls, all encoders with numeric outputs", "why_tests_cant": "All tables: each column goes through six preprocessing steps, one of four encoders and a last conversion, and what they receive later can be of any type.", "anchors": ["skrub/_table_vectorizer.py:TableVectorizer", "skrub/_to_categorical.py:ToCategorical", "skrub/_to_float32.py:ToFloat32", "skrub/_on_each_column.py:OnEachColumn"]}
{"id": "C118", "title": "tabular_learner gives estimators only what they can take", "statement": "The last step of tabular_learner is the estimator asked for. It is given 32-bit floats, or string categories if it is a histogram gradient boosting that reads them from the types; no missing entries unless it takes NaN; columns of the same number and kinds when it predicts. Means, indicators and scales come from the table used to fit. Anything but an estimator or one of four strings is refused.", "quantifier": "all estimators, all tables, all later tables", "why_tests_cant": "All combinations of estimators, tables and later tables; the pipeline depends on tags of the estimator.", "anchors": ["skrub/_tabular_learner.py:tabular_learner", "skrub/_table_vectorizer.py:TableVectorizer"]}
{"id": "C119", "title": "The filters of a report show the columns they announce", "statement": "Selecting an entry of the menu of a report shows exactly the columns that its name announces (all columns, the first ten, those with or without nulls, numeric or not, ..., those similar to another one), and their number. Custom filters come first and show the columns they list; the Reset button shows all columns.", "quantifier": "all tables, all custom filters, all associations", "why_tests_cant": "All tables and filters; the menu is made in Python and applied by a script in the page that unit tests of Python do not run.", "anchors": ["skrub/_reporting/_html.py:_get_column_filters", "skrub/_reporting/_html.py:to_html", "skrub/_reporting/_summarize.py:_add_associations", "skrub/_reporting/_data/templates/report.js:FilterableColumn"]}
{"id": "C120", "title": "A report has a JSON form", "statement": "json() gives a standard JSON document for all tables. It contains the number of rows and of columns and, for each column in order, its name, its position and its exact number of nulls.", "quantifier": "all tables, titles, sort columns and options", "why_tests_cant": "All tables: whether the document can be written depends on the types of the values and names in it.", "anchors": ["skrub/_reporting/_table_report.py:TableReport.json", "skrub/_reporting/_summarize.py:summarize_dataframe", "skrub/_reporting/_utils.py:JSONEncoder"]}
{"id": "C121", "title": "write_html writes the whole report or fails and leaves files as they were", "statement": "After write_html, the file (given by a path or as an object open in binary or text mode) contains the page in UTF-8, once. In case of an error it is as it was before. Text files with other encodings are refused.", "quantifier": "all pages, all paths and file objects", "why_tests_cant": "All characters and kinds of file objects; what matters in case of an error is what the file contains afterwards.", "anchors": ["skrub/_reporting/_table_report.py:TableReport.write_html"]}
{"id": "C122", "title": "open shows the report in a browser and leaves no server behind", "statement": "open returns when a browser has received the page, and not for other requests; the server is then stopped. If nobody asks for the page within 5 seconds, the server is stopped and RuntimeError is raised.", "quantifier": "all interleavings of clients, server and caller", "why_tests_cant": "Concurrent: all orders of connections, requests, answers and timeouts, including clients that never say anything.", "anchors": ["skrub/_reporting/_serve.py:open_in_browser", "skrub/_reporting/_table_report.py:TableReport.open"]}
{"id": "C123", "title": "plots of a report label values and columns readably and faithfully", "statement": "A label of a plot is the text with runs of whitespace replaced by one blank if that has at most 30 characters; otherwise it is the start of it, without blanks at the ends, an ellipsis, and at most one mark that gives the ellipsis the direction of the last character, so it never has more than 32 characters. The figure shows the label as it is, and the label changes nothing else in the figure.", "quantifier": "all texts, all figures around them", "why_tests_cant": "All Unicode texts, including those that look like the markup, the sizes or the placeholder colors of the figure; what comes out is the result of three substitutions on the whole file.", "anchors": ["skrub/_reporting/_utils.py:ellide_string", "skrub/_reporting/_plotting.py:_serialize", "skrub/_reporting/_plotting.py:value_counts"]}
{"id": "C124", "title": "percentages shown in reports are right to half a tenth of a percent", "statement": "0.0% is shown only for none, < 0.1% exactly for proportions above 0 and under 0.001; other percentages are within half a tenth of a percent of the proportion, exact for whole tenths, and in the order of the proportions. 100.0% is shown only for all.", "quantifier": "all proportions", "why_tests_cant": "All rational proportions, including those close to the bounds.", "anchors": ["skrub/_reporting/_utils.py:format_percent"]}
{"id": "C125", "title": "Outliers in histograms are few and far, whatever the order and the units", "statement": "The bars and the numbers of low and high outliers add up to the number of values that are not null; the red bars and the text give these numbers. At most about a fifth of the values are low outliers and a fifth high ones, all more than 3 times the spread of the middle 60% away from it; values further than 3.45 times away are outliers. Order and units do not matter. Outliers lie outside the range of the bars.", "quantifier": "all non-empty lists of numbers", "why_tests_cant": "All lists of rational numbers, with ties and interpolated quantiles.", "anchors": ["skrub/_reporting/_plotting.py:_get_range", "skrub/_reporting/_plotting.py:_robust_hist"]}
{"id": "C126", "title": "durations are shown in a unit that fits them", "statement": "A column of durations is shown as numbers of one unit that stand for the same durations. At least one of them is 1 or more (or the unit is the microsecond) and at most about a tenth of them reach the next larger unit.", "quantifier": "all columns of durations", "why_tests_cant": "All columns, including negative and null durations and values at the limits of units.", "anchors": ["skrub/_reporting/_utils.py:duration_to_numeric"]}
{"id": "C127", "title": "The text of a step shows its name", "statement": "An expression can be printed whatever its name. The text of a named step is the text of the step with the name after the bracket; describe_steps has the line of each step with its name, and the boxes of graphs show both.", "quantifier": "all names that set_name accepts", "why_tests_cant": "All strings: the name goes through a regular expression replacement, splitting in lines and capitals.", "anchors": ["skrub/_expressions/_expressions.py:Expr.__repr__", "skrub/_expressions/_expressions.py:check_name", "skrub/_expressions/_utils.py:simple_repr", "skrub/_expressions/_inspection.py:_node_kwargs"]}
{"id": "C128", "title": "Concatenating tables in a pipeline gives all columns under the names of the fit", "statement": "skb.concat_horizontal gives the columns of all tables in order, with as many rows. After a fit, other calls give the names of the last successful fit to the same columns, whatever happened in between. Anything but tables that fit together and have the fitted columns is refused.", "quantifier": "all tables, all sequences of calls", "why_tests_cant": "All histories of fits and other calls, all tables, all random draws for names.", "anchors": ["skrub/_expressions/_expressions.py:ConcatHorizontal", "skrub/_dataframe/_common.py:concat_horizontal", "skrub/_dataframe/_common.py:set_column_names"]}
{"id": "C129", "title": "StringEncoder gives a text a code that depends only on its words, the same at the fit and later", "statement": "With the default character n-grams, two entries whose texts have the same words up to case, spacing and order get the same code, whether they are in the column of the fit or in a later one; nulls are coded as empty texts. Transforming the column of the fit again gives what fit_transform returned. Every row has min(n_components, number of distinct n-grams) entries (of hash buckets for the hashing vectorizer), at the fit and later. With the tfidf vectorizer, a later entry without an n-gram of the fitted column is coded like an empty text. When the column has no more rows, or no more n-grams, than n_components, codes are the first n_components weighed counts of the n-grams in sorted order. The fit accepts exactly the columns of texts and nulls in which some text has a word (hashing: that have a row) and raises ValueError otherwise; it raises AttributeError when an entry is not a text.", "quantifier": "all columns, later columns, numbers of components and ranges of n-grams; weighing, hashing and decomposition are any functions with the lengths scikit-learn documents", "why_tests_cant": "tests encode a few given words and compare shapes; they do not cover columns of blanks only, small columns whose codes are truncated, or texts whose words are permuted", "anchors": ["skrub/_string_encoder.py:StringEncoder.fit_transform", "skrub/_string_encoder.py:StringEncoder.transform"]}
{"id": "C130", "title": "The sample table of a report is a full grid with every value at its place", "statement": "For any dataframe with columns, the sample table has a row for each level of the columns, one more row of head and one for each row shown (all of them, or the first and the last ones), and as many columns as levels of the index and columns of the dataframe. Taking the spans into account, every position of this grid is covered by exactly one cell, and nothing is outside. The cell shows the value of the dataframe, the label of the row or column, or the name of the level that stands there; clicking in a column selects the column of the dataframe it shows. Cells come in order in each row, so that a browser draws them at these positions. Any other dataframe has a sample table too.", "quantifier": "all dataframes with any numbers of rows, columns and levels, any names, labels that repeat or are NaN; any sizes of the top and bottom slices", "why_tests_cant": "spans, slices and names of levels combine in unboundedly many ways; tests look at a few small tables", "anchors": ["skrub/_reporting/_sample_table.py:make_table", "skrub/_reporting/_sample_table.py:_PandasTable", "skrub/_reporting/_sample_table.py:_PolarsTable"]}
{"id": "C131", "title": "fetch_ken_embeddings gives the vectors of the entities of the types asked for", "statement": "The table has one row for each stored vector whose entity has a type that contains the searched pattern and not the excluded one, with the first such type, names without their brackets, and columns X0, X1... with the suffix. Searching a type that fetch_ken_types lists finds all its entities. With pca_components, vectors are projected to that many components in one space, so that equal vectors stay equal; as many entities as components are enough.", "quantifier": "all tables of types and files of embeddings, all patterns, numbers of components and suffixes; any regular expressions and PCA", "why_tests_cant": "needs downloads of several gigabytes; tests mock small single files, while the real tables come in several files", "anchors": ["skrub/datasets/_ken_embeddings.py:fetch_ken_embeddings", "skrub/datasets/_ken_embeddings.py:fetch_ken_types"]}
{"id": "C132", "title": "Outputs of transformers have the rows of the input, in order, under its index", "statement": "Whatever indexes the outputs of wrapped transformers carry, and also when labels of rows are duplicated, applying a transformer column by column, or to several columns together, gives the index of the input, with the untouched columns and the outputs side by side by position; the same holds of the encoders, of predictions inside expressions, of the features of dates (null exactly where the date or the feature is null), and through any number of steps. An output with another number of rows than the input is refused with ValueError.", "quantifier": "all dataframes, indexes (also duplicated labels), transformers and outputs with any indexes; any number of steps", "why_tests_cant": "pandas aligns on labels whenever two indexes differ; tests use few inputs, mostly with default indexes or one shuffled one, and transformers that behave", "anchors": ["skrub/_on_each_column.py:OnEachColumn", "skrub/_on_subframe.py:OnSubFrame", "skrub/_dataframe/_common.py:copy_index", "skrub/_dataframe/_common.py:concat_horizontal", "skrub/_datetime_encoder.py:DatetimeEncoder.transform"]}
{"id": "C133", "title": "Joins give one row per row of the main table, in order and by position", "statement": "Joiner and InterpolationJoiner return the rows of the main table in order, each with the columns of the row it matches (nulls if none) or with its predictions, whatever the index of the main table is. AggTarget pairs the rows of the target with those of the main table by position, whatever their indexes, and refuses another number of rows. The result has the index of the main table.", "quantifier": "all main tables with any index, all matches, auxiliary tables and predictions", "why_tests_cant": "needs tables whose indexes differ, repeat or are out of order; tests use default indexes", "anchors": ["skrub/_joiner.py:Joiner.transform", "skrub/_interpolation_joiner.py:InterpolationJoiner.transform", "skrub/_agg_joiner.py:AggTarget.fit_transform", "skrub/_join_utils.py:left_join"]}
{"id": "C134", "title": "Selectors by type and by values tell columns apart, and alike in pandas and polars", "statement": "integer() and float() select different columns, all of them among those of numeric(), and numeric() selects no other. A column is selected by at most one of numeric(), boolean(), string(), any_date() and categorical(). has_nulls() selects exactly the columns with a null or a NaN, and cardinality_below(t) exactly those with fewer than t different values, nulls and NaN not counted. The same values are selected by the same selectors in pandas, with any of its types for them, and in polars.", "quantifier": "all columns of all types of pandas (also nullable, categorical, pyarrow and object ones) and polars, any entries, any thresholds", "why_tests_cant": "tests use one small table per library with a few types; object columns, nulls, NaN and nullable types combine in many ways", "anchors": ["skrub/_selectors/_selectors.py:cardinality_below", "skrub/_dataframe/_common.py:is_bool", "skrub/_dataframe/_common.py:is_numeric", "skrub/_dataframe/_common.py:is_string", "skrub/_dataframe/_common.py:n_unique", "skrub/_dataframe/_common.py:is_null"]}
{"id": "C135", "title": "The description of a parameter grid shows each configuration once", "statement": "The text given by describe_param_grid consists of blocks of lines, one line for each choice. Each configuration that a search can try is shown by one block and by no other: its lines are those of the choices that this configuration uses, and the outcome it takes is in the list on the line. The grid is said to be empty if and only if there is no choice.", "quantifier": "all graphs of choices, all outcomes, all names, all characters", "why_tests_cant": "All nestings of choices and all strings: outcomes are shortened by the standard library, quoted, and written after names that are arbitrary.", "anchors": ["skrub/_expressions/_inspection.py:describe_param_grid", "skrub/_utils.py:_ShortRepr", "skrub/_utils.py:short_repr", "skrub/_expressions/_choosing.py:_repr_numeric_choice"]}
{"id": "C136", "title": "Each dataframe operation uses the implementation last registered for the class of its operand", "statement": "After any history of registrations (for any library, installed or not, for all its types or some, failing or not) and of calls, an operation on an object uses the implementation last registered for the first class of its resolution order that has one, or else the default. Registrations for one library do not affect objects of the other. A library that is not installed is never an error and registers nothing; an unknown library, or an unknown type name of an installed library, is an error that changes nothing.", "quantifier": "all class hierarchies, all histories of registrations and calls, all orders of sets of types", "why_tests_cant": "the result depends on the order of registrations and calls through a cache of implementations, and on which libraries are installed; tests use one order in one environment", "anchors": ["skrub/_dispatch.py:dispatch", "skrub/_dispatch.py:_load_dataframe_module_info"]}
{"id": "C137", "title": "Transformers give dataframes of the library of their input, or an error", "statement": "Applying a transformer to some columns together, or column by column, gives an eager dataframe of the library of the input, or fails. When fitting, an output that is an array, a lazy dataframe, or from the other library is refused (TypeError; AttributeError for a lazy dataframe from one column), except a pandas dataframe that a scikit-learn before 1.4 was asked for, which is converted; the container asked for by set_output is always accepted. What is accepted when fitting is also accepted when transforming, and all columns of a list are checked.", "quantifier": "all outputs of all transformers, both libraries, any version of scikit-learn", "why_tests_cant": "transformers are arbitrary user code; tests run with the installed version of scikit-learn and well-behaved transformers", "anchors": ["skrub/_utils.py:check_output", "skrub/_utils.py:set_output", "skrub/_on_subframe.py:OnSubFrame", "skrub/_on_each_column.py:OnEachColumn", "skrub/_dataframe/_common.py:to_column_list"]}
{"id": "C138", "title": "Answers of a fitted pipeline use neither targets nor hyper-parameters", "statement": "transform, predict, predict_proba, predict_log_proba and decision_function compute nothing that serves only as a target of a step, as a parameter of an estimator or of its application, or before a step frozen after the fit: such variables need not be given, and setting such parameters after the fit changes no answer before the next fit. score uses the targets besides (also of unsupervised steps). fit uses everything but the targets of unsupervised steps. Nothing is computed for what the environment gives.", "quantifier": "all expressions, environments, fitted states and methods; any estimators and functions", "why_tests_cant": "depends on every way in which the nodes of a graph may be linked; tests check some methods on a few pipelines", "anchors": ["skrub/_expressions/_expressions.py:Apply.fields_required_for_eval", "skrub/_expressions/_expressions.py:FreezeAfterFit", "skrub/_expressions/_evaluation.py:_Evaluator", "skrub/_expressions/_evaluation.py:evaluate"]}
{"id": "C139", "title": "A choice given with ** stands for the parameter it is named after", "statement": "f(**choice1, **choice2, p=v) gives each choice to the parameter named by what follows the last __ of its name, with any prefix before it; it is refused exactly when a choice has no name (AttributeError) or a parameter is given twice (TypeError). A discretized numeric choice is besides the sequence of its values (len, iteration, indexing from both ends, reversed, index and in agree, and the default is one of them); other choices are not sequences. choose_from keeps the outcomes and names it is given and refuses empty ones and names that are not strings. map_values keeps class, names and the outcome chosen, and the value of the mapped choice is the image of the value; optional and if_else give the value announced for each outcome.", "quantifier": "all names, outcomes, grids, functions given to map_values and chosen outcomes", "why_tests_cant": "names are arbitrary strings, in which __ may overlap itself or occur many times; agreement of the sequence methods is over all indices and values", "anchors": ["skrub/_expressions/_choosing.py:BaseChoice", "skrub/_expressions/_choosing.py:_wrap_getitem", "skrub/_expressions/_choosing.py:Choice.map_values", "skrub/_expressions/_choosing.py:DiscretizedNumericChoice", "skrub/_expressions/_choosing.py:optional", "skrub/_expressions/_choosing.py:BoolChoice.if_else"]}
{"id": "C140", "title": "Joining the same tables again gives the same table", "statement": "Fitting the same AggJoiner, MultiAggJoiner or InterpolationJoiner on the same tables gives the same table, whatever the process it runs in: it depends neither on the hash seed of Python, nor on the order in which groups are returned by the dataframe library, nor on random names unless names clash.", "quantifier": "all tables and parameters; all orders of sets and groups; all random names", "why_tests_cant": "the order of a set of strings changes from one process to the next (PYTHONHASHSEED) and groups are unordered in polars; tests run in one process and compare with small expected tables, often ignoring column order", "anchors": ["skrub/_agg_joiner.py:AggJoiner.fit_transform", "skrub/_multi_agg_joiner.py:MultiAggJoiner._check_cols", "skrub/_interpolation_joiner.py:_get_assignments_for_estimator"]}
{"id": "C141", "title": "A pipeline counts as the kind of estimator that its final step is", "statement": "In cross-validation and in searches a pipeline tells scikit-learn that it is what the estimator of its final apply step (or else of the first one in use) is when nothing was chosen: classifier, regressor, ..., whatever choices, nested or not, lead to this estimator; transformer if it applies none or one that does not say. Asking changes nothing.", "quantifier": "all expressions, nested choices and matches, classes of estimators and states", "why_tests_cant": "which splits and scores scikit-learn uses silently depends on the answer; the ways of nesting choices are unbounded, tests use an estimator or one choice", "anchors": ["skrub/_expressions/_estimator.py:_XyEstimatorMixin._estimator_type", "skrub/_expressions/_choosing.py:get_default", "skrub/_expressions/_evaluation.py:find_first_apply"]}
{"id": "C142", "title": "Asking a fitted pipeline for its classes gives those of its final step and changes nothing", "statement": "In cross-validation and in searches, classes_ of a fitted pipeline is that of its final apply step (or else of the first one in use), an AttributeError if it has none or is not fitted; asking, any number of times, changes nothing that was fitted, so that later predictions are not affected.", "quantifier": "all expressions accepted when created, with any data in them, all fitted states, any number of times", "why_tests_cant": "reading the attribute builds and previews an expression; whether this computes a step depends on where the expression gets its data from, tests use pipelines with variables for everything", "anchors": ["skrub/_expressions/_estimator.py:_get_classes", "skrub/_expressions/_estimator.py:_XyEstimatorMixin.classes_", "skrub/_expressions/_estimator.py:_XyParamSearch.classes_", "skrub/_expressions/_expressions.py:Expr.__getattr__", "skrub/_expressions/_expressions.py:check_expr"]}
{"id": "C143", "title": "Each page of a report tells what happened to its step", "statement": "A report of an evaluation has an index and one page for each step of the expression. When the evaluation succeeds, the page of a step shows the step's value if the result needed it, and says that the step did not run otherwise; when it fails, the page of the step where it failed, and no other, shows the error. The drawing on each page marks the steps accordingly.", "quantifier": "all expressions, modes, environments, earlier results, values and failures", "why_tests_cant": "which steps run, and which one fails first, depends on the expression and the data; tests look at one report", "anchors": ["skrub/_expressions/_inspection.py:full_report", "skrub/_expressions/_inspection.py:_do_full_report", "skrub/_expressions/_inspection.py:_node_status", "skrub/_expressions/_inspection.py:node_report", "skrub/_expressions/_evaluation.py:evaluate"]}
{"id": "C144", "title": "Pages of a report link each step with those it used and those that used it", "statement": "On the page of a step of a report, 'This step used' links to the pages of the steps it uses directly and 'This step was used by' to those of the steps that use it directly, each once, with the description of that step; the arrows lead to the pages before and after, which exist.", "quantifier": "all expressions", "why_tests_cant": "the links come from a traversal of an arbitrary graph of steps, containers and estimators, through a numbering; tests only check that pages are written", "anchors": ["skrub/_expressions/_inspection.py:_do_full_report", "skrub/_reporting/_data/templates/expressions/node.html", "skrub/_expressions/_evaluation.py:graph"]}
{"id": "C145", "title": "Reports never replace files unless asked and leave nothing behind when they fail", "statement": "Without overwrite=True, writing a report changes no file that exists, whatever happens; a directory that exists is refused before anything is computed. Outside the directory of the report only the directories it is in are created. The directory of a finished report holds its index and its pages and nothing older. A report that fails leaves files as they were.", "quantifier": "all file systems, directories, expressions, states and failures", "why_tests_cant": "failures can come from any step, value, description or drawing, after any number of files were written; tests write one report to an empty directory", "anchors": ["skrub/_expressions/_inspection.py:_get_output_dir", "skrub/_expressions/_inspection.py:full_report", "skrub/_expressions/_inspection.py:_do_full_report"]}
{"id": "C146", "title": "A TextEncoder loaded from a file answers as the one that was saved", "statement": "Saving (or copying) a TextEncoder and loading it, at any time and any number of times, with or without the weights of its model, changes none of its later answers, in this process or another.", "quantifier": "all histories of fits, transforms, changes of parameters and saves; all models, columns and failures", "why_tests_cant": "the model is loaded lazily and kept or dropped depending on a parameter; whether it is loaded again, with which parameters, depends on the whole history; tests save one fitted encoder once", "anchors": ["skrub/_text_encoder.py:TextEncoder.__getstate__", "skrub/_text_encoder.py:TextEncoder._estimator", "skrub/_text_encoder.py:TextEncoder.transform"]}
{"id": "C147", "title": "A TextEncoder that is not fitted says so", "statement": "As long as no fit of a TextEncoder has succeeded, transform raises NotFittedError (or ValueError if the column has no strings), and does not load a model.", "quantifier": "all histories without a successful fit", "why_tests_cant": "whether an attribute exists depends on where an earlier fit failed; tests call transform on a new encoder at most", "anchors": ["skrub/_text_encoder.py:TextEncoder.transform", "skrub/_text_encoder.py:TextEncoder.get_feature_names_out", "skrub/_text_encoder.py:TextEncoder.fit_transform"]}
{"id": "C148", "title": "A pipeline loaded from a file answers as the one that was saved", "statement": "Saving an estimator made from an expression and loading it, whatever has been done with it before, gives an estimator that answers all later calls (fit, predictions, scores, reports, sub-estimators, in any order) as the saved one would. It is made of new objects: fitting it changes nothing of the saved one.", "quantifier": "all expressions, states of their nodes, sequences of later calls, data, estimators and failures", "why_tests_cant": "what later calls give depends on the identity of shared steps, choices and fitted estimators, which saving replaces by others; tests save one pipeline and compare one prediction", "anchors": ["skrub/_expressions/_utils.py:_CloudPickle", "skrub/_expressions/_estimator.py:_CloudPickleExpr", "skrub/_expressions/_estimator.py:ExprEstimator", "skrub/_expressions/_evaluation.py:evaluate"]}
{"id": "C149", "title": "Pipelines that can be evaluated can be made into estimators and saved", "statement": "If an expression can be evaluated, get_estimator gives an estimator for it; the check that get_estimator makes ensures that the estimator can be saved later.", "quantifier": "all expressions, limits on recursion, values and fitted estimators", "why_tests_cant": "the limit depends on the depth of the expression and on the process; what is fitted depends on the data; tests use short pipelines", "anchors": ["skrub/_expressions/_skrub_namespace.py:SkrubNamespace.get_estimator", "skrub/_expressions/_skrub_namespace.py:_check_can_be_pickled", "skrub/_expressions/_utils.py:_CloudPickle"]}
{"id": "C150", "title": "Single-column transformers refuse anything but one column", "statement": "The methods fit, fit_transform, transform and partial_fit of a class derived from SingleColumnTransformer raise ValueError, before anything else happens, when they are given a dataframe or something that is not a column; for columns they do what the class says.", "quantifier": "all hierarchies of classes, methods with any behaviour (including super() and calls of each other), inputs", "why_tests_cant": "which function is called depends on the whole hierarchy, and which functions are wrapped on which class defines them; tests call the transformers of skrub", "anchors": ["skrub/_on_each_column.py:SingleColumnTransformer", "skrub/_on_each_column.py:_wrap_add_check_single_column"]}
{"id": "C151", "title": "The documentation of single-column transformers has a note after its first paragraph", "statement": "The documentation of a class derived from SingleColumnTransformer is kept, and a note is added as a paragraph of its own after its first paragraph, indented as the rest.", "quantifier": "all documentation texts", "why_tests_cant": "depends on blank lines, indentation and the end of an arbitrary text; tests look at the classes of skrub", "anchors": ["skrub/_on_each_column.py:_insert_after_first_paragraph", "skrub/_on_each_column.py:SingleColumnTransformer"]}
{"id": "C152", "title": "Code run on expressions does later what it does on values", "statement": "If Python code that uses expressions (operators, indexing, attributes, calls, assignments, if, while, for) builds a pipeline without raising, then the same code run on the values of the expressions takes the same path: it finishes with the same names, and evaluating each expression gives the value that its name has then; or it raises, and evaluating one of the expressions raises the same. If building raises although the code runs on the values, it is a TypeError or an AttributeError.", "quantifier": "all programs of a small language with loops and branches, values, operators that may fail, expressions to start from, environments and modes", "why_tests_cant": "the program is arbitrary and control flow depends on data; tests compare single operations", "anchors": ["skrub/_expressions/_expressions.py:Expr", "skrub/_expressions/_expressions.py:_make_bin_op", "skrub/_expressions/_expressions.py:_make_r_bin_op", "skrub/_expressions/_expressions.py:_make_unary_op", "skrub/_expressions/_evaluation.py:evaluate"]}
{"id": "C153", "title": "Expressions are refused where their value is needed at once", "statement": "An expression used as a condition, in and, or, not, a loop, len, a membership test or an item assignment raises TypeError. Operators, indexing, calls and attributes give a new expression, except for attributes with two underscores on both sides and a list of names that other libraries look for, which raise AttributeError.", "quantifier": "all expressions, operands, attribute names", "why_tests_cant": "attribute names are unbounded, and the value of an expression could be used anywhere in a program; tests try some uses", "anchors": ["skrub/_expressions/_expressions.py:Expr.__bool__", "skrub/_expressions/_expressions.py:Expr.__iter__", "skrub/_expressions/_expressions.py:Expr.__getattr__", "skrub/_expressions/_expressions.py:Expr.__setitem__"]}
