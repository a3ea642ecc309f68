# Design of the formal model of skrub

The development lives in `rocq/theories`. It is a collection of shallow, executable
Gallina models of skrub functions, written branch by branch from the source (each
definition cites file and lines of `/repo`), with exceptions as values, and theorems
about them.

## Layout

For each area there are up to three files:

* `M_<area>.v`: the model (definitions only, no proofs).
* `L_<area>.v`: an independent specification (prefix `spec_`/`Spec`) and lemmas.
* `P_<area>.v`: the property theorems only. Each theorem is closed by `exact <lemma>`,
  is followed by `Print Assumptions`, and has an `Example` showing that a concrete,
  non-trivial case meets its hypotheses.

Conventions

* `res A := Ok a | Err e`: Python exceptions are values of `exn`.
* Python `dict`s are association lists in insertion order; `set`s are lists used only
  through membership. `id(obj)` identities are natural numbers.
* A dataframe is a list of named columns `list (string * C)`; the column type `C` is a
  type parameter, so theorems hold for any kind of data. Row-level facts use lists of
  cells.
* External behaviour (random tokens, hash functions, estimators, clustering, distances,
  file-system outcomes, ...) is a parameter of the model (an argument or a `Section`
  variable that is generalised when the section is closed): theorems hold for every such
  behaviour, under the explicit hypotheses written in the statement.
* Floating-point numbers are modelled by exact arithmetic (`Q` or `R`) where the property
  is about ranges; rounding is out of scope.
* A property that is false of the code has a theorem ending in `_refuted` with a concrete
  witness, and the strongest positive statement we could prove beside it.

## Trusted base

* The Coq 8.16.1 kernel (`coqc`, `vm_compute`).
* The assumptions listed by `Print Assumptions` under each theorem. Almost all theorems
  are closed under the global context. Theorems over `R` use the axioms of the
  standard library's real numbers (`ClassicalDedekindReals.sig_forall_dec`,
  `ClassicalDedekindReals.sig_not_dec`, `Classical_Prop.classic`,
  `FunctionalExtensionality.functional_extensionality_dep`). See the section
  "Assumptions per theorem" at the end.
* The reading of the Python code into the model: the code is not executed here. What is
  modelled and what is abstracted is listed per property below and in the comments of the
  `M_*.v` files.

## Per-property plan

| id | model | proof |
|----|-------|-------|
| C01 | `LRUDict` as association list, oldest first; ops get/contains/set | simulation against an abstract "list of touches" specification, induction over histories |
| C02 | `unique_strings`, `_compute_hash_batched`, slices, LRU cache with invariant "cached value = hash" | invariant on cache + reindexing lemma |
| C03, C04 | `pick_column_names`/`_get_new_name` over Coq strings incl. the tag regex; tokens from an oracle list | induction with the used-names invariant; counter-example for a colliding token |
| C05 | `make_column_names_unique`, `concat_horizontal` | corollary of C03 |
| C06, C07 | selector AST + `matches`/`expand` | structural induction, list lemmas |
| C08 | `SelectCols`/`DropCols` | list lemmas |
| C09-C12 | `OnEachColumn` with an abstract single-column transformer oracle | induction over columns; counter-example for permuted columns |
| C13 | `OnSubFrame` | list lemmas |
| C14 | `CheckInputDataFrame` | list lemmas + C03 |
| C15, C16 | `TableVectorizer._make_pipeline` as a sequence of `OnEachColumn` steps on selectors | induction over steps; counter-example for dropped columns |
| C17, C18 | `check_key`, `check_missing_columns`, `left_join` on rows | list lemmas |
| C19 | `aggregate` + `AggJoiner`, names over strings | injectivity of names (no underscore in operations), group lemmas |
| C20 | `MultiAggJoiner` with the mutable `aux_tables` parameter as state | counter-example; positive theorem without 'X' |
| C21, C22 | `_rescale_distances`, `match`, `Joiner._transform` | case analysis over extended rationals, join lemmas; counter-example for clashing match-info columns |
| C23 | `_get_assignments_for_estimator`, `_check_*_results` | permutation lemmas |
| C24-C29 | expression graph as a finite map id -> node; evaluator with cache, pruning, environment, errors | well-founded induction over the DAG; reachability invariant |
| C30 | cloner with memo table | induction, isomorphism |
| C31 | `_expand_grid` with mutation of the shared `children` dict | induction on number of unassigned choices |
| C32, C33 | display names; decimal printing/parsing of parameter names | pigeonhole; decimal lemmas |
| C34 | `NumericChoice`/`DiscretizedNumericChoice` over `Q`/`R` | arithmetic; counter-example for the sampling range |
| C35, C36, C37 | `Choice.match`, `check_call_return_value`, `_FindConflicts` | case analysis, traversal invariants |
| C38-C40 | file-system state machine with crash points | inductive invariant over all histories; counter-examples for concurrency and figshare |
| C41-C45 | header counters, slices, patching, rc params, histogram range | induction |
| C46-C48 | n-gram multisets, `get_ngram_count`, `ngram_min_hash` over `Z` with int32 wrap | multiset lemmas; counter-examples |
| C49 | `_create_spelling_correction` | list lemmas |
| C50 | `DatetimeEncoder` feature bookkeeping | case analysis; counter-example |
| C51 | zero-padded names | decimal lemmas |
| C52-C54 | encoder attribute state machines | simulation; counter-examples |
| C55 | contingency tables over `Q` | summation lemmas |
| C56-C58 | direct models | arithmetic, string lemmas |

## What is modelled, area by area

### Names and caches (`M_lru.v`, `M_names.v`, `M_str.v`; C01-C05)

Modelled: `LRUDict`, `unique_strings`, the hash batching of `MinHashEncoder`,
`pick_column_names`/`_get_new_name` with the tag regular expression,
`make_column_names_unique`, `concat_horizontal` (names and column order).
Abstracted: the hash of one string; the random token is an arbitrary list of draws.

### Selectors (`M_select.v`; C06-C08)

Modelled: every selector node (`all`, `cols`, `inv`, `or`, `and`, `xor`, `-`, filters,
name filters, `nothing`), `make_selector`, `expand`, `SelectCols`, `DropCols`.
Abstracted: predicates on columns (dtype tests) are arbitrary functions that may raise.

### Applying transformers to columns (`M_oncols.v`; C09-C13, C59, C60)

Modelled: `OnEachColumn` and `OnSubFrame` (`fit_transform`, `transform`, names, `keep_original`,
`rename_columns`, `allow_reject`, `columns`), including the exceptions.
Abstracted: the transformer itself (an oracle that may return one column, several, or raise).
`n_jobs` is 1 (the result of `joblib.Parallel` is ordered, so this only fixes the order in
which exceptions appear).

### Input checks and TableVectorizer (`M_checkinput.v`, `M_tablevec.v`; C14-C16, C61)

Modelled: `CheckInputDataFrame`, `TableVectorizer.fit_transform`/`transform`: preprocessing
steps, routing to the five kinds of transformers, `specific_transformers`, provenance
(`input_to_outputs_`, `output_to_input_`, `kind_to_columns_`, `all_processing_steps_`).
Abstracted: the transformers of each step. `Cleaner` and the `tabular_learner` are not modelled
in this file.

### Joins on keys (`L_leftjoin.v`; C17, C18)

Modelled: `check_key`, `check_missing_columns`, `check_column_name_duplicates`, `left_join`
on rows (pandas `merge` and polars `join` are a row-level specification with nulls).

### Expressions (`M_traverse.v`, `M_expr.v`; C24-C29)

Modelled: `_ExprTraversal.run` as a machine with an explicit stack of suspended generators,
including the circular reference check; `_Evaluator` with all its handlers, caches, errors,
the environment, `_Reachable`, `_cache_pruner`, `_Graph`, `clear_results`, `evaluate`;
`compute` of `Var`, `Value`, `IfElse`, `Match`, `FreezeAfterFit`, `AppliedEstimator`;
`Choice`, `NumericChoice`, `choice.match`; containers, slices, estimators.
Abstracted: what the estimators and operators return (`externals`); values are an arbitrary type,
and evaluated values are assumed not to be mutated (skrub copies nothing either).
Python objects are nodes of a heap (`oid -> obj`) which evaluation does not change, apart
from the `results`, `errors` and fitted attributes kept in the state. `Apply` keeps its fitted
attributes as a value of the arbitrary type `F`.
Python 3.11 notes (`add_note`) are a flag.
Heap hypotheses: `closed h size` (finitely many objects, no dangling reference).

### Cloning (`M_clone.v`; C30)

Modelled: `_Cloner` with its table of already cloned objects, `__replace__`, `drop_preview_data`,
`sklearn.clone` of estimators with their parameters, in a heap to which objects are added.
Abstracted: `copy.deepcopy` and `clone` of plain values (may raise).

### Choices and grids (`M_grid.v`, `M_choicegraph.v`; C31-C33, C37, C62)

Modelled: `_ChoiceGraph` as a traversal, `choice_graph` with the choices used for X and y,
`_expand_grid` with the dictionary of children that its recursive calls share, `param_grid`,
`_choice_display_names`, `get_params`/`set_params` with the decimal names of parameters,
`_FindNode`, `find_X`, `find_y`, `_FindConflicts`.
Abstracted: the hash of an outcome when it is looked up in the mapping of a `.match()`
(`hash_obj`); C62 assumes that it is the one of its value (`lookup_by_value`), true for strings,
numbers, `None`.
Hypotheses: `choices_ok` is what the constructors `Choice` and `Match` check.

### Numeric choices (`M_numeric.v`; C34) and matches (`M_match.v`; C35)

Modelled: `_check_bounds`, `NumericChoice`, `DiscretizedNumericChoice` (grid, default, draws);
`Choice.match`, `Match.match`, `_check_match_keys`, `get_chosen_or_default`.
Abstracted: floating point numbers are real numbers of the standard library, so that the
theorems of `P_numeric.v` depend on its axioms (`ClassicalDedekindReals.sig_forall_dec`,
`ClassicalDedekindReals.sig_not_dec`, `FunctionalExtensionality.functional_extensionality_dep`,
`Classical_Prop.classic`); a random draw is an arbitrary number of [0, 1), an arbitrary index
for grids. Hashing a value gives an arbitrary key or a `TypeError`.

### Creation of expressions (`M_check.v`; C36, C63)

Modelled: `check_expr`, `_check_return_value`, `_find_dataframe`, `find_arg`, on top of the models
of evaluation, conflicts and the choice graph. Warnings are not modelled. Errors raised while
formatting a message are not modelled.

### Aggregation joins (`M_agg.v`; C19)

Modelled: `aggregate`, `perform_groupby` for pandas and polars, `check_other_inputs`,
`AggJoiner.fit_transform`, `transform`, `AggTarget.fit_transform` on tables by rows.
Abstracted: the aggregation functions (may raise), the order of the groups and of `list(set(...))`
(arbitrary permutations), which columns are numeric. Nulls: pandas `groupby` drops null keys and
`merge` matches them; polars keeps null keys in `group_by` and does not match them in `join`.
`CheckInputDataFrame` is taken as the identity on dataframes with distinct string column names,
apart from the check of the columns in `transform`. A target given as a series or array, and
suffixes that are not strings, are not modelled.

### Fuzzy joins (`M_matching.v`, `M_joiner.v`; C21, C22)

Modelled: `_matching.py` (fit and match of the four strategies, `_rescale_distances` with the numpy
shapes of a scalar and of an array reference, `_sample_pairs`, `np.percentile` with linear
interpolation), `Joiner.fit_transform`, `_transform`, `transform`, `fuzzy_join`.
Abstracted: the vectorizer (any function from the key rows to as many vectors, possibly failing),
the distance between vectors (any function to Q), the order in which `kneighbors` breaks ties (any
permutation sorted by distance), the random pairs (any sequence of draws). Finite floats are exact
rationals; NaN is not modelled. `C21_null_reference_fails`: with a scalar reference equal to 0,
`distances[False]` has shape (0, n) and `reference[False]` shape (0,), which cannot be broadcast for
n > 0, so numpy raises a ValueError. Cells: integers are written injectively and are not null.
A `max_dist` string other than "inf" is an error at once. `CheckInputDataFrame` is as for AggJoiner.

### Several aggregation joins (`M_multiagg.v`; C20)

Modelled: all of `_multi_agg_joiner.py` on top of the model of `AggJoiner`, with nested lists for keys,
columns and operations (the parameter checks on the types of elements are not modelled).
`fit` also returns `self.aux_tables`, which it modifies; the modification stays when a later check or a
join fails. The columns of a table chosen by default go through `set_order` (the order of a Python set),
here and again in each `AggJoiner`. `C20_refit_refuted`: with "X", a second fit uses the first main table.

### Interpolation joins (`M_interp.v`; C23)

Modelled: all of `_interpolation_joiner.py` except joblib (the calls are sequential, so with
`on_estimator_failure="raise"` the first failure is reported). Abstracted: dtype predicates, the vectorizer
(any function giving one vector per row), the estimators (any functions that may fail; predictions are given by
columns and have one column per target), the order of a Python set. That no column is both numeric and
string/categorical (`DisjointTypes`) is a hypothesis of "exactly one" only.

### Dataset cache (`M_dataset.v`; C38, C39)

Modelled: `load_dataset_files`, `_extract_archive`, `_download_archive`, `_stream_download` as a transition system;
every operation on the archive path or on the directory of files is one step, after which any process can run or
be killed. `rmtree` removes the files one by one in any order. Renames are atomic. Temporary files and directories are
local to their process (fresh names). Assumed: the checksum has no collision with the published archive.
Abstracted: reading a file (any file with a readable suffix can be read); entries of the returned Bunch are
named after the file, not its stem. An interrupt outside the `try` of `_extract_archive` is the same as a kill.
`C39_refuted`: with a damaged archive, a slow process removes files that a faster one has just repaired; when it is
killed half-way, the archive is valid and the directory is incomplete.

### Figshare tables (`M_figshare.v`; C40)

Modelled: `_fetch_figshare` and the reading of the files by `fetch_figshare`. A file is written in two steps (it
exists but cannot be read; it is complete). Identifiers are strings of digits. The directory listing has any order.
The file of an unknown identifier is not verified; the theorems assume that a verified download is the table.
`C40_killed` says what happens at each crash point; a crash between two files makes later fetches return a part of the
table (`C40_killed_refuted`). Identifiers that are prefixes of others mix up tables (`C40_prefix_refuted`); all the known
identifiers have the same length.

### Sample table of a report (`M_sampletable.v`; C41, C42)

Modelled: `_LevelCounter`, `_multi_index_table_headers`, `_pick_slice_sizes`, `add_df_slices`, the sizes computed by
`TableReport.__init__`. The headers are shared mutable dictionaries: the model keeps them in the counters and the rows
refer to them. Values are compared with Python's `==`, any symmetric and transitive relation (NaN is not equal to itself).

### Display of dataframes (`M_patching.v`; C43)

Modelled: `_patch`, `_unpatch`, `_change_display`, `_get_to_patch` on two classes, each with its own and its inherited
attributes. The two names under which the originals are kept are excluded from the statements (they stay after unpatching).
Changes made to the classes by other code between two calls are not modelled.

### Plots of a report (`M_plotting.v`; C44, C45)

Modelled: `_plot` (settings of matplotlib as a dictionary with a validation that can fail; the plotting function is any
function that may change settings and raise), `_get_range`, the counts of `_robust_hist`, the dropping of nulls in
`histogram`. Not modelled: drawing; float rounding (finite floats are exact rationals); datetime columns (integer
division of timedeltas). `np.quantile` is numpy's `_lerp`, also on infinite values; `C45_refuted` is about the column
`[1, inf]`, where `inf - inf` makes the bounds NaN whichever of the two formulas of `_lerp` is used.

### String similarity and SimilarityEncoder (`M_similarity.v`; C46, C47)

Modelled: `get_ngram_count`, `preprocess`, `get_ngrams`, `ngram_similarity`; `SimilarityEncoder.fit` and `transform` on one
column (fast method, and slow method without hashing), with `CountVectorizer(analyzer="char")`. Strings are lists of any
characters, with any notion of white space (the same for `re` and `str.split`) and any `lower`. Not modelled: missing values,
the choice of the categories, the analyzers "char_wb" and "word", `hashing_dim`, float rounding.
Exact values of the fast method need `max_n <= len(text) + 1` and a `lower` that acts on each character (U+0130 does not).

### Minimal hashes (`M_fasthash.v`; C48)

Modelled: `ngram_min_hash` (with the truncation of the bytes to the number of characters, int32 arithmetic modulo 2^32, and
`np.correlate` also when the atom is longer than the text), `_get_fast_hash`, `get_unique_ngrams`, `_get_murmur_hash`.
Abstracted: the UTF-8 encoding (at least one byte per character), the random atoms (any integers, of the length asked),
murmurhash. The cache and the nulls are in `M_lru.v`. The conversion of the results to float32 is not modelled.

### Deduplication (`M_dedup.v`; C49)

Modelled: `_guess_clusters`, `_create_spelling_correction`, `deduplicate`. Abstracted: distances and linkage (any function
that may fail), the cut of the tree (any labels), silhouette scores, the order of words with equal counts.

### DatetimeEncoder (`M_dtencoder.v`; C50, C64)

Modelled: `_check_params`, `fit_transform`, `transform`, `_CircularEncoder`, `_SplineEncoder` (number and names of their
columns, refusal of empty columns by `SplineTransformer`). Abstracted: the features of one datetime, sine and cosine, the
spline functions. Not modelled: polars dates (which have no hour) given to an encoder fitted on datetimes; float32 rounding;
a later column with another name (its plain features get the new name and the encoded ones the old one).

### Numbered names (`M_numnames.v`; C51)

Modelled: `get_feature_names_out` of MinHashEncoder and TextEncoder. Alphabetical order is the order of code points.

### Successive fits (`M_refit.v`; C52)

Modelled: `StringEncoder.fit_transform` and `transform`, `TextEncoder.fit_transform` and `transform`, as functions of the
attributes left by the previous fits. Assumed of scikit-learn (`SLib`, `TLib`): vectorizers give a fixed number of columns,
decompositions give the number of columns asked, refuse other widths, and transform the data of the fit as during the fit
(rounding aside). Not modelled: fits that fail half-way, pickling.

### GapEncoder (`M_gap.v`; C53, C54, C65-C67)

Modelled: `_init_vars`, `_get_H`, `_add_unseen_keys_to_H_dict`, the multiplicative updates, `fit`, `partial_fit`, `score`,
`transform` and `get_feature_names_out`, as functions of the fitted attributes, over any arithmetic (record `arith`; C54_statistics
is over the rationals). Abstracted as functions: the vectorizers, the initial draw of the topics, the divergence that decides when
to stop, the order of the words of a topic. Assumed where stated: the names of the words are as `CountVectorizer` makes them
(`NamesOk`) and the sort is a permutation (`SortOk`). Not modelled: attributes after a fit that fails, numpy dropping trailing
NUL characters of strings, categories that are not strings, verbosity.

### Associations of columns (`M_assoc.v`; C55)

Modelled: `column_associations` with `_stack_symmetric_associations`, `_cramer_v_matrix`, `_onehot_encode*`,
`_contingency_table`, `_compute_cramer`, `_compute_pearson`, `_melt` and the final `left_join`. Abstracted: conversions of
columns, `OneHotEncoder` and `KBinsDiscretizer` (`OneHotOk`, `KBinsOk`: one bin per row, at most the number asked, each
category its own bin when there are few; they accept any column that is not empty), `np.argsort`, the square root
(monotone), `df.corr`. Not modelled: rounding (scores are exact rationals before the root), tables without rows.

### Dropping columns with nulls (`M_dropnulls.v`; C56)

Modelled: `DropIfTooManyNulls.fit_transform` and `transform` with the attribute `drop_`. Floats are rationals; the division
rounds, by any monotone function with a relative error of at most 2^-53 (`FloatOk`). Complex thresholds (which are numbers
and raise `TypeError`) are not modelled.

### Null strings (`M_nullstr.v`; C57)

Modelled: `CleanNullStrings`, with the search of `^\s*$` (greedy, with backtracking; `$` also matches before a final newline
in Python, not in polars). Abstracted: which characters are white space. Not modelled: pandas may change the type of an object
column without strings when it replaces with a regular expression (the values stay equal).

### Misspelled duplicates (`M_gendup.v`; C58)

Modelled: `make_deduplication_data` for any random generator that gives as many numbers as asked and letters among 26. Not
modelled: negative numbers of entries, NUL characters at the end of strings (numpy drops them).

### Parsing datetimes (`M_todt.v`; C68-C71)

Modelled: `ToDatetime.fit_transform` and `transform` with their attributes, `_get_datetime_format`, `_guess_datetime_format`,
`_convert_time_zone`, `_get_time_zone`, the function `to_datetime` on a column, `sbd.to_datetime` and `sbd.cast` on datetimes.
Datetimes are numbers of nanoseconds; without a zone they are those in UTC. Abstracted as functions: the parser and the guesser
of pandas and polars (per entry), the random sample (`PickOk`: distinct positions), time zones and their names. Not modelled:
overflow of datetimes, `pd.to_datetime` on scalars, python `datetime` objects in the function `to_datetime`.

### Summaries of columns (`M_summary.v`; C72-C77)

Modelled (the unit of durations is specified in `L_summary2.v`): `_summarize_column` and the functions it calls, `top_k_value_counts`, `quantiles`, `duration_to_numeric`, and the loop
of `summarize_dataframe` with `order_by`. Entries are null, NaN or a value of any type; a column has a library and a kind.
Abstracted as functions: numbers and durations as rationals, the scaling of durations (which rounds), the position of a quantile
with `interpolation="nearest"` (`QidxOk`: at most one half away), sorting counts (`SortOk`), the order of dates. Not modelled:
means and standard deviations, values that cannot be hashed, truncation of values for display, associations (see C55), plots
except their names.

### Results of searches (`M_results.v`; C78-C80)

Modelled: `_get_cv_results_table` and `plot_results` of `_estimator.py`, and `get_parallel_coord_data`, `_prepare_column`,
`_prepare_obj_column`, `_prepare_numeric_column`, `_add_jitter` of `_parallel_coord.py`. Choices keep only what these functions
read: outcomes and their names, or a numeric range with its scale. `cv_results_` is a dictionary of lists of scores; `Fitted` says
what scikit-learn guarantees about it and about the candidates (each gives outcomes to some choices, lists have one entry per
candidate). Abstracted as functions: the kind of an outcome for pandas (None, NaN, number, other) and its `str`, the logarithm,
formats of tick labels, the categories of `OrdinalEncoder` (`CategoriesOk`: the distinct texts), random draws of the jitter
(`Noise`: within [-1, 1] times the amplitude) and of column names (`Fresh`, as for C15). The dtype pandas infers is numeric if there
are only numbers and missing values, not only `None`; booleans count as other outcomes. Not modelled: plotly, colours.

### Apply steps (`M_apply.v`; C81-C85)

Modelled: `Apply.compute`, `Apply.fields_required_for_eval`, `Apply.supported_modes`, `_wrap_estimator`, `_check_wrap_params`,
`wrap_transformer`, and pipelines of such steps, each applied to the result of the previous one. The attributes of a step are the
estimator it uses (as it is, one clone per column, one clone for some columns), what fitting it gave, and the names of the targets.
Abstracted as functions (record `world`): estimators (which attributes they have, `fit`, `fit_transform`, methods once fitted) and
data (their kind, names, conversion of names to strings, `make_dataframe_like`). Assumed where stated: `fit_transform` of a
transformer returns what `transform` then gives (`Consistent`), wrapped transformers give dataframes (`WrapOk`). `NotImplementedError`
is a `RuntimeError`. Simplified: which methods an estimator has does not depend on fitting; the estimator of a step is not itself a
choice or an expression (see C24-C27 for their evaluation).

### Life of an estimator (`M_estimator.v`; C86-C92)

Modelled: `ExprEstimator` (`fit`, methods found by `__getattr__`, `report`, `sub_estimator`, the mark `_is_fitted`), `full_report` as
far as it evaluates the expression, `supported_modes`, `find_first_apply`, `find_node_by_name`. It builds on the evaluation of
expressions (`M_expr.v`): a world is the state of the nodes (results, errors, fitted attributes) and the list of
estimators made so far, the first from `get_estimator`, the others from `sub_estimator`, which all share the nodes. Histories are
lists of calls. Specifications do not follow the evaluation but its denotation (`L_expr2.v`, `L_expr4.v`): which value a node has, which
nodes a value needs. `trace` records which nodes the last call has computed; it is not in the code. Not modelled: writing the
pages of reports (assumed to succeed), `get_params` and `set_params` (see above), cloning and pickling, `find_fitted_estimator`,
`_XyExprEstimator`, `ParamSearch` (its table of results is in `M_results.v`).

### Cleaning columns (`M_clean.v`; C93-C99)

Modelled: `ToFloat32`, `ToStr`, `CleanCategories` with the conversions of `_dataframe/_common.py` they use (`to_float32`, `to_string`,
`to_categorical`, `is_string`, ...), the list of steps of `Cleaner` and of the preprocessing of `TableVectorizer`, how each step goes
through the columns of a table (those it rejects are kept, those it drops disappear), `all_processing_steps_`. The models of
`CleanNullStrings`, `DropIfTooManyNulls` and `ToDatetime` are the ones of C57, C56 and C68-C71, through conversions of columns
(`ns_col`, `dt_col`). A column has a library, a type and entries; `WF` says which entries a type allows. Abstracted as functions:
numbers and what `pd.to_numeric` or `cast` make of an entry, texts of entries (`str_text`: a text is its own text), the order of
categories (`sort_perm`), hashing, which types polars can cast, and what the other models leave open. `fit_transform` of the
TableVectorizer goes on with encoders (`M_tablevec.v` and others); C93-C98 are about the table they get. Simplified: names of columns are distinct
and not changed by steps (see `M_oncols.v`); `specific_transformers` are not given; any exception of a step other than `RejectColumn` is
reported as the `ValueError` raised by `OnEachColumn`.

### Splits and searches (`M_search.v`; C100-C104)

Modelled: `_find_Xy`, `_compute_Xy`, `train_test_split`, `_XyEstimatorMixin._get_env`, `_XyExprEstimator.fit` as used to refit,
`_to_env_estimator`, `ParamSearch.fit`, `ParamSearch.__getattr__` and `_call_predictor_method`, `set_params`, on top of the copies of
expressions (`M_clone.v`), their evaluation (`M_expr.v`), their choices (`M_choicegraph.v`, `M_grid.v`) and their estimators
(`M_estimator.v`). Each estimator has an expression of its own, in a memory of its own, with what is stored in it. From
scikit-learn: the last step of `BaseSearchCV.fit` (two clones, `set_params`, `fit`). Abstracted as functions: the splitter; the
cross-validation, which from X, y and the grids gives results and, if the search refits, the best parameters; the hash of an object in a
memory and which methods an estimator declares, for which `copies_hash` and `copies_declare` say that copies of an object are like
the object (proved for objects compared by value in `hash_values_copies`, for methods of classes in `declares_of_copies`). The
copies of values are equal to them (a hypothesis on `copy`; C100 does not need it). Simplified: the parameters drawn are only indices for choices of outcomes
and numbers for numeric choices; `cross_validate` itself is not modelled; of the attributes copied by `_copy_attr` only
`cv_results_` and `best_estimator_` are. `search.score` uses the estimator's `score`.

### Deferred functions (`M_deferred.v`; C105-C108)

Modelled: `deferred`, `Call.compute`, and what evaluation, `needs_eval` and `_check_environment` do to the objects they traverse: containers
are rebuilt by calling their class, estimators are cloned. Python functions have a signature (positional and keyword-only parameters,
`*args`, `**kwargs`), defaults, variables of enclosing functions (cells, which may be empty), global names loaded by their own code or by
code nested in it, and a bound object for methods; matching arguments with parameters follows the language reference. The code
itself is a function `exec` of what it sees; C105 assumes that it reads no other global names than those listed (no `globals()`).
Effects (assignments to global or nonlocal variables) are not modelled, except that variables may differ between the time a
function is made deferred and the time it is evaluated. The value of an expression is given (`meaning`; see C24). Calls of the class of a container and clones are
functions; `ordinary` objects are those for which they give back the same. Not modelled: objects that contain themselves, positional-only parameters.

### Showing expressions (`M_graph.v`; C109-C112)

Modelled: `_Graph`/`_simplify_graph`/`graph`, `_Printer`/`describe_steps`, the boxes, arrows and labels of `draw_expr_graph`. Costs are numbers of iterations of
the loop of `_ExprTraversal.run` (the stack machine of `M_traverse.v`). `simple_repr` is given. In `_Printer` the traversal rebuilds containers and clones
estimators with `None` in the place of steps; this is assumed to succeed. A label is well formed if it is text without raw `<` or `&` (other than entities) and `<br />`, as graphviz requires of labels with markup.
Not modelled: colours, tooltips, graphviz itself, the pages of `full_report` (its result and error are in `M_estimator.v`).

### The `.skb` attribute and operators (`M_namespace.v`; C113-C116)

Modelled: `get_data`, `eval`, the evaluation made by `full_report`, `set_name`, `set_description`, `mark_as_X`, `mark_as_y` (a copy of the
node, with its results and errors but not its fitted attributes, checked by `check_expr`), `applied_estimator`, `Expr.__call__`, and binary operators
with Python's rule for which operand is asked first. What the operator of an operand that is not an expression answers is a function `own`.
C113 and C114 are about variables whose values are plain objects (`plain_data`) and C113 about steps that do not read the mode (`mode_blind`). C116
assumes of the operators that swapped comparisons agree (`mirrored`) and that calling a method is getting it and calling it (`method_is_call`).
Not modelled: descriptions, in-place operators (python falls back on the binary ones), `__getattr__` exclusions, the pages of the report.

### From tables to estimators (`M_tabular.v`; C117-C118)

Modelled: a TableVectorizer (`M_tablevec.v`) whose preprocessing and last step are those of `M_clean.v`, with `numeric=PassThrough()` and no
`specific_transformers`; `ToCategorical`; `tabular_learner`. Encoders other than `ToCategorical` are functions, of which the theorems ask that they give
numeric columns, as many at each time, for columns of the kind they were fitted on (`Gives`, `EncodersOk`). From scikit-learn: `Pipeline`,
`SimpleImputer(add_indicator=True)` and `StandardScaler` on columns of numbers, with `check_array` (numbers only, no infinite ones, at least one
row and one column); means and scales are functions of a column. `NoCollision` says that the random strings used to rename columns do not collide, as in C15.
An estimator is described by its class and tags. Not modelled: parallel jobs, memory, parameters of the encoders other than the kind, the last estimator itself.

### Filters and JSON of reports (`M_filters.v`, `M_json.v`; C119-C120)

Modelled: `_get_column_filters`, `_get_high_association_columns`, how `to_html` merges them with the custom ones, `_add_associations`; and of the page
(`report.js`) what selecting an entry hides and counts, and the Reset button. Selectors and types of columns are those of `M_select.v` and `M_clean.v`. The
associations themselves (C78-C80) are given: C119 assumes that their positions are columns and that they are sorted (`AssoOk`, `AllPairs`).
JSON: the dictionary of a report over the summaries of `M_summary.v`, and `json.dumps` with `JSONEncoder`. Which Python object stands for a value or a null of a
column is a function; means, deviations, plots and names of types are too. `json.dumps` is modelled on the objects that reports contain: numbers, texts, None,
lists, dictionaries with texts as keys; cyclic objects are not.

### Writing and opening reports (`M_reportio.v`; C121-C122)

Modelled: `write_html` for paths and file objects, with UTF-8 on code points; `open_in_browser` as a transition system of clients, the thread of the server and the
caller. Files are functions from paths to bytes; `open(path, "w")` truncates; file objects are described by the errors of `write` on bytes and on texts and their
`encoding`. Line ends are those of the platform; the theorems are for `\n`. `TCPServer` serves one client at a time, reads without a timeout and, once `shutdown` is
called, stops after the current client. Not modelled: partial writes by the operating system, exceptions of `webbrowser.open`, when sockets are released.

### Labels and percentages (`M_labels.v`; C123-C124)

Modelled: `ellide_string`, `format_percent`, and `_serialize` as three substitutions (leftmost matches that do not overlap) on the whole text of the figure, in which a label
is the contents of an element. `str.isspace` and `unicodedata.bidirectional` are functions; C123 asks of the latter only the directions of the three marks (`MarksOk`). From
matplotlib: which texts are formulas, `\$`, and the escaping of `&`, `<`, `>`; the drawing of formulas and `float` of the digits of a size are functions that may fail. The rest
of the file around a label is arbitrary. Percentages are of exact rationals. Not modelled: the geometry of the figures.

### Histograms and durations (`M_hist.v`; C125-C126)

Modelled: `_get_range`, `_robust_hist` and `duration_to_numeric` on exact rationals, with `np.quantile` (linear interpolation) and `np.histogram` (10 bars). The quantile used
for durations is a function; C126_readable asks that it gives a value of the column with at most a tenth of the values above (`Nearest9`). Not modelled: rounding, infinite
values, nulls (they are dropped before), the geometry of the figure.

### Text of expressions (`M_exprtext.v`; C127)

Modelled: `Expr.__repr__`, with `re.sub` and the templates of replacements (`parse_template`) for a pattern with one group; `check_name`, `simple_repr`, the lines of
`describe_steps` (the visits are given; C110 says which they are) and the labels of boxes. The texts of the nodes themselves are given, as are `str.upper`, `str.isidentifier`, the
line breaks and `repr` of strings. Simplification: `\g<+1>` and the like, which old versions of Python accept as numbers, are errors.

### Concatenation steps (`M_concatstep.v`; C128)

Modelled: `ConcatHorizontal.compute` with its state (the names of the last fit), both implementations of `concat_horizontal` on tables with rows, and both of `set_column_names`.
Names are picked as in `M_names.v`. Nulls that complete columns do not change other values (types of columns are not modelled). Indexes are not modelled but for their length.

### Codes of texts (`M_strenc.v`; C129)

Modelled: `StringEncoder.fit_transform` and `transform` of a new encoder (refits are in `M_refit.v`), with the character n-grams within words, the vocabularies (sorted,
distinct) and the counts of scikit-learn. `str.isspace` and `str.lower` are functions. `TfidfTransformer`, `HashingVectorizer` and `TruncatedSVD` are functions of the fitted
matrix and a row (`SkLib`: lengths, and that hashing does not depend on the order of n-grams); so a decomposition is assumed to give the same result for the fitted
matrix in `fit_transform` and in `transform`. `min_df`, `max_df` and `stop_words` have their defaults. Names of outputs are in `M_names.v`.

### Sample tables (`M_tablegrid.v`; C130)

Modelled: `_PandasTable` and `_PolarsTable` whole (headers and slices are in `M_sampletable.v`), with positions, spans, roles, values and `column_idx` of cells. A missing
`rowspan` or `colspan` is 1, as in the template. Equality of labels is any symmetric and transitive relation (so NaN may differ from itself). `itertuples` gives nothing for a dataframe
without columns. Not modelled: `elem` and `scope`, the HTML and the scripts.

### Embeddings by type (`M_ken.v`; C131)

Modelled: `fetch_ken_types` and `fetch_ken_embeddings` on fetched tables (the cache is in `M_figshare.v`). Regular expressions are any function; statements about names of types assume
what ordinary characters and groups mean (`Regular`). The PCA is any function that keeps the number of rows; the refutation assumes what it gives for a single column (`OneColumn`).
Simplifications: the files of a table have the same columns; types and entities are texts (no nulls).

### Rows and indexes (`M_index.v`; C132, C133)

Modelled: how pandas dataframes are put together, with their indexes: `pd.DataFrame(dict)` (alignment of series on labels, refusal of duplicated labels in indexes that differ,
lengths of arrays), `reindex`, `pd.concat(axis=1)`, `set_axis`, `Series.where`; above them `make_dataframe_like`, `concat_horizontal`, `copy_index`, `with_columns`, `where_row`;
above these `OnEachColumn`, `OnSubFrame`, the end of encoders and of predictions in expressions, `DatetimeEncoder.transform`, `InterpolationJoiner.transform`, `Joiner` and the
table that `AggTarget` aggregates. What transformers, estimators and matching give is arbitrary. Labels of a `RangeIndex` are an injective function of positions; the union of several
`RangeIndex` is the longest one (both are hypotheses of the theorems that use them, met by the examples). Simplifications: names are given and distinct (their choice is in `M_names.v`),
types of values are not modelled, `merge` is used with distinct keys on the right (C19, C21 for keys).

### Selectors by type and by values (`M_seltypes.v`; C134)

Modelled: the predicates behind `numeric`, `integer`, `float`, `any_date`, `categorical`, `string`, `boolean`, `has_nulls` and `cardinality_below`, in both libraries. Types are listed
with what `pd.api.types` and polars say of them (a trusted table of facts about these libraries, pandas 2); columns of objects are inspected entry by entry. Which columns can be
counted and what values are equal are given. Not modelled: `glob` and `regex` (a call to the standard library), sparse types, the storage of `StringDtype`.

### Descriptions of parameter grids (`M_describe.v`; C135)

`describe_param_grid` on the sub-grids of `M_grid.v`, `_repr_numeric_choice`, `Choice.__repr__` / `__skrub_short_repr__`,
`Optional.__repr__`, `BoolChoice.__repr__`, `repr_args`, `short_repr`, `_ShortRepr.repr_instance`, `Repr.repr_dict`, and from the
standard library `reprlib.Repr` (limits on levels, lists, dicts, strings, integers, others) and `repr` of a string (quotes and
escape sequences; which characters outside ASCII are printable is a parameter). Objects other than strings, integers, lists,
tuples, dicts and choices are their class name and their `repr`. Names of choices are a parameter here (C32 is about them). The
specification reads the text back: lines, blocks, and items of a list with the escape sequences undone; it does not use the
printer. Not modelled: sets, arrays and deques of the standard library, objects other than choices with `__skrub_short_repr__`.

### Dispatch and outputs of transformers (`M_dispatch.v`; C136, C137)

`dispatch` and `specialize`, with the registry, cache and lookup of `functools.singledispatch` (the resolution order of classes is a
parameter; abstract classes are not registered, so it is where the lookup goes). Which modules are known, what their types are and
which are installed are parameters. `specialize` and the application of its decorator are one step. Then `check_output`,
`set_output`, `to_column_list`, `is_column_list`, and how `OnSubFrame` and `OnEachColumn` use them: contents of dataframes are
abstract (names and indexes are in `M_names.v` and `M_index.v`), and how `pd.concat`, `pl.concat`, `pl.from_pandas` and the
constructors combine them is a parameter, but which kinds they refuse is modelled. NotImplementedError is `RuntimeError`, of which it
is a subclass. `set_output` itself failing is not distinguished from the transformer not honouring it.

### What answers use (`L_targets.v`, on `M_expr.v`; C138)

No new model: the specification says which parts of a graph serve to fit, to score and to answer, from the kinds of the nodes only, and is
compared with `evaluate`. Environments are both empty or both not empty where two are compared (variables look at this in previews only).

### Choices as arguments, sequences and mappings (`M_choicemap.v`; C139)

Modelled: construction of enumerated choices with its checks (`choose_from`, `optional`,
`choose_bool`), `keys` and `__getitem__` (which is what `**choice` uses), the `Sequence` interface of
discretized choices, `map_values`, `default`, `chosen_outcome_or_default`, and `if_else` on top of
`M_match.v`. Python's protocol for keyword arguments (keys, then items, an argument given twice is a
`TypeError`) and the methods inherited from `collections.abc.Sequence` are part of the model.
Outcomes are arbitrary; names are lists of code points. The grid and midpoint of numeric choices are
those of `M_numeric.v`, taken here as given. Not modelled: outcomes given to `choose_from` that are
neither a list nor a mapping, slices, and the text of error messages.

### Joining again (`L_reseed.v`, `L_reseed2.v`, on `M_agg.v`, `M_multiagg.v`, `M_interp.v`; C140)

No new model: the orders of `list(set(...))` and of groups and the random names are parameters of the
models of the joiners. `circumstances` gathers them, and the theorems compare two fits in different
circumstances. The order of a set of strings is taken as arbitrary: in CPython it depends on the hash
seed of the process. The hypotheses `NoClash` and `FreshIn` are those under which C19 gives names to
the results.

### What pipelines tell scikit-learn (`M_kind.v`, on `M_expr.v`, `M_check.v`, `M_estimator.v`; C141, C142)

Modelled: `_estimator_type`, `get_default`, `_get_classes` and `classes_` of pipelines and searches, and `Expr.__getattr__`, which
`_get_classes` calls because it asks an expression for its attribute `expr`: the new node is added to the memory and goes through
`check_expr` (conflicts, dataframes, choices, preview). Which classes say what kind they are, and the `classes_` of what was fitted, are
parameters. `waits_for_data` is the hypothesis of what is proved of `classes_`: every step that keeps something needs, directly or
not, a variable without a value (pipelines made by `get_estimator` and in cross-validation have no values for variables), and the
preview stops there. Without it the property is false: data held by the expression (`as_expr`, `deferred`) lets the preview fit steps
again. Not modelled: `__sklearn_tags__`, which calls the method of the same estimator; the exception handlers that replace
an AttributeError by another.

### Pages of reports (`M_pages.v`, on `M_expr.v` and `M_graph.v`; C143, C144, C145)

Modelled: `full_report`, `_do_full_report`, `_node_status`, `node_report`, `_get_output_dir` and the parts of the template of a page that
show links and outcomes. A file system is a partial function from paths (lists of names, already resolved) to directories and files;
`mkdir(parents=True)`, `rmtree` and `write_text` act on it. Parameters: how a value is rendered (which may fail), the description of a step,
the drawing, the stack and the estimator on the page, and whether a text can be encoded. `tree d` (what exists is in a directory that exists) is
true of every file system. Not modelled: permissions, links and full disks, other processes writing to the directory, the HTML itself, and
opening a browser.

### Saved text encoders (`M_textenc.v`; C146, C147)

Modelled: the attributes of a `TextEncoder` with the cached property `_estimator`, `fit_transform`, `transform`, `get_feature_names_out`,
`_check_params`, `__getstate__` and `set_params`, including what each failure leaves. `check_is_fitted(self, "_estimator")` is `hasattr`, so that it
loads the model. Saving and loading is `getstate`: pickling of the attributes themselves is assumed faithful. Parameters: loading a model (from
the parameters that it is loaded with; it may fail), encoding, the PCA. `M_refit.v` (C52) is an older and simpler model of successful fits; there a
transform without model is an error, which is not reached in the histories of C52. Not modelled: devices, progress bars, warnings.

### Saved pipelines (`M_pickle.v`; C148, C149)

Modelled: `_CloudPickle.__getstate__`/`__setstate__` for an `ExprEstimator`, `get_estimator(fitted=False)` with `_check_can_be_pickled`, and of the
pickle module: objects are written depth first, each object once (memo by identity), one level of recursion for each nested object at least, the
objects read are new and refer to each other as the written ones did. Fields of nodes, containers, choices and estimators are the objects of
`M_expr.v`; attributes that nodes keep (`fitted`, caches) are written with them. Parameters: which plain values and fitted attributes can be
written and what is read for them (C148: the same value); the number of levels. Keys, names and classes are assumed picklable. Functions are plain
values (`cloudpickle` by value or by reference is part of the parameter). The levels that interpreter and caller use up before are not counted, nor
those inside plain values, so that C149's refutation holds for every limit. Which methods an estimator declares (`declares`) is assumed to survive.

### Classes of single-column transformers (`M_singlecol.v`; C150, C151)

Modelled: `SingleColumnTransformer` with `__init_subclass__`, `fit` and `_check_single_column`, `_wrap_add_check_single_column`,
`_insert_after_first_paragraph`. A class is its method resolution order, given as a list of class bodies; attribute lookup and `super()` follow it.
Methods are arbitrary programs with effects, calls of `self` and `super()`, and exceptions that they may catch. Not modelled: static and class
methods, metaclasses, functions that are wrapped already (`transform = Parent.transform`), the wrappers that scikit-learn adds. Texts are ASCII and
lines end with a newline only.

### Code run on expressions (`M_staging.v`, on `M_namespace.v` and `M_expr.v`; C152, C153)

Modelled: what `Expr` does when it is used in a program: `__getattr__`, `__getitem__`, `__call__`, `__len__`, `__setitem__`, `__bool__`, `__iter__`,
`__contains__` and the operators. The program is in a small language (names, literals, operators, indexing, attributes, calls with one argument,
`and`, `or`, `not`, `is None`, `in`, `len`, assignment, item assignment, `if`, `while`, `for`); while the pipeline is built a name stands for a plain
value or an expression. The direct run on the values (`run`, the specification) is written separately. Parameters: Python's operations on plain
values (`prim`), truth, iteration, and what plain objects answer when they are given an expression (`own`, `foreign`; C152 needs that they leave it to
the expression or raise TypeError, and is false for functions such as `str`). Loops are given a number of turns, the same in both runs. Not modelled:
functions defined by the user, keyword arguments, `try`, containers that hold expressions, aliasing of plain containers, previews (variables have no example
values; a preview can only make the construction raise, see `M_check.v`), operations with side effects.

## Known gaps found by random edits of the model

409 random edits of the definitions of the model were tried (see `seeded/LOG.jsonl`, "automatic mutation"). The build stopped for 347 of them;
these were not examined one by one, and a build can stop because a proof script no longer applies although the claim still holds. 62 built.
Of these, 7 led to stronger statements (operators of C116, columns of C78 and C79, names of pages in C143, unknown values in C47, the unit of durations
in C76, names of methods in C82), one is equivalent and one was in a definition that nothing used, now removed. The others are not excluded by any theorem:

* the class of many exceptions (34 edits), in branches whose reachability was not examined each time;
* arithmetic and comparison with infinities in the histograms of reports;
* texts and keys in outputs: several keys and words of the JSON form, separators and dots in printed dictionaries, an axis label, a heading;
* the stopping rule of GapEncoder, a matplotlib setting, multi-digit group numbers in the text of expressions;
* a few initial values and branches that were not examined further.

## Assumptions per theorem

`Print Assumptions` follows each of the 604 theorems that `MANIFEST.json` lists. 596 are "Closed under the global context". The other 8 are in
`P_numeric.v`, about real numbers, and use axioms of the standard library only:

| theorem | axioms |
|---|---|
| `C34_bounds_checked` | `ClassicalDedekindReals.sig_forall_dec`, `FunctionalExtensionality.functional_extensionality_dep` |
| `C34_default_within_bounds`, `C34_grid_within_bounds`, `C34_grid_draws`, `C34_log_draws_within_bounds`, `C34_draws_within_bounds_refuted`, `C34_linear_draws_partial`, `C34_linear_draws_miss_values` | these two, `ClassicalDedekindReals.sig_not_dec` and `Classical_Prop.classic` |
