{
 "claims": [
  {
   "property": "C01",
   "status": "partial",
   "theorems": [
    "C01_no_leakage",
    "C01_matrix",
    "C01_meaning",
    "C01_rows_partial",
    "C01_hidden_link_refuted"
   ],
   "note": "Proved for one calculation and for the whole driver with chunks, workers and arrival orders; each row depends only on the data at its own time (C01_rows_partial, under the hypotheses of C06). Proved for the whole feature set calculation at one cutoff, for all schemas, data, features and instances, when no secondary time index hides an index, time index or link column; without that the property is refuted (rows are selected by the raw link column)."
  },
  {
   "property": "C02",
   "status": "proved",
   "theorems": [
    "C02_window_boundaries",
    "C02_no_time_index"
   ],
   "note": "Row visibility boundaries of query_by_values for every table, cutoff and window."
  },
  {
   "property": "C03",
   "status": "partial",
   "theorems": [
    "C03_query_ignores_future_partial",
    "C03_future_child_refuted"
   ],
   "note": "Refuted when last time indexes exist: a child event after the cutoff selects an old parent row. Proved without last time indexes (or with equal ones): the query result depends only on data known at the cutoff."
  },
  {
   "property": "C04",
   "status": "partial",
   "theorems": [
    "C05_query_by_values_exact",
    "C04_secondary_boundary_refuted",
    "C04_chained_secondary_refuted"
   ],
   "note": "The exact masking rule is C05_query_by_values_exact. The stated property is refuted: the secondary mask uses >= even when the cutoff is included, and chained secondary indexes lose values."
  },
  {
   "property": "C05",
   "status": "proved",
   "theorems": [
    "C05_query_by_values_exact",
    "C05_query_without_time",
    "C05_observation_window_rejected"
   ],
   "note": "query_by_values returns exactly the visible, matching rows, in order, with hidden cells missing."
  },
  {
   "property": "C06",
   "status": "partial",
   "theorems": [
    "C06_values_partial",
    "C06_entries_partial",
    "C06_null_result_refuted",
    "C06_condition_input_refuted",
    "C06_two_relationships_refuted",
    "C06_empty_window_refuted",
    "C06_renamed_identity_refuted",
    "C06_link_full_refuted"
   ],
   "note": "For every request that returns, any stacking depth, entity set, instances, cutoff and window: columns, rows and every value equal the recursive meaning (S_Sem.v). Hypotheses: clear_names (a column name has one origin) and plain_features (S_Value.v); without approximate or precalculated features. The refuted theorems show why those hypotheses are needed: null results replaced by the default, a condition that is also an input, deep paths over one of two relationships, empty use_previous windows, renamed identity features. Direct features called like a link column (what DFS builds on three-level schemas) are covered as long as no feature needs its whole entity; C06_link_full_refuted shows that with one the value depends on which other instances are requested."
  },
  {
   "property": "C07",
   "status": "partial",
   "theorems": [
    "C07_independent_partial",
    "C07_pointwise_partial",
    "C07_renamed_direct_refuted",
    "C07_two_counts_refuted",
    "C07_time_since_previous_refuted"
   ],
   "note": "Two requests that return and share a feature and an instance hold the same value, under the hypotheses of C06. Refuted in general: a direct feature or a count with a renamed copy cannot be calculated together, and TimeSincePrevious depends on the other instances."
  },
  {
   "property": "C08",
   "status": "partial",
   "theorems": [
    "C08_rows_partial",
    "C08_defaults_partial",
    "C08_duplicate_refuted"
   ],
   "note": "One row per requested id in request order when ids are distinct; ids without a visible row get the defaults. Duplicated unknown ids raise or give two rows (refuted). That a request returns is a hypothesis."
  },
  {
   "property": "C09",
   "status": "partial",
   "theorems": [
    "C09_chunks_exact",
    "C09_chunk_size",
    "C10_schedule_and_chunk_independent",
    "C10_calculated_partial",
    "C09_chunk_size_refuted"
   ],
   "note": "Refuted in general: TimeSincePrevious changes with the chunk size. Chunks partition the cutoff frame grouped by time for every chunk size; the returned matrix is the same for every chunk size, for every calculator whose values for an instance do not depend on the other instances of the call (C07)."
  },
  {
   "property": "C10",
   "status": "partial",
   "theorems": [
    "C10_matrix_answers_requests",
    "C10_single_cutoff_answers",
    "C10_schedule_and_chunk_independent",
    "C10_driver_total",
    "C10_arrival_order",
    "C10_arrival_order_single",
    "C10_arrival_calculated",
    "C10_calculated_partial",
    "C10_workers_refuted"
   ],
   "note": "The arrival order of chunks never matters, for any calculator. The number of workers matters for TimeSincePrevious (refuted). Otherwise: For every calculator that is pointwise (C07), every number of workers, chunk size and arrival order."
  },
  {
   "property": "C11",
   "status": "partial",
   "theorems": [
    "C11_rounds_down",
    "C11_rounding_laws",
    "C11_integer_window_refuted",
    "C11_several_units_refuted"
   ],
   "note": "Proved for every window of one fixed unit and every cutoff frame; refuted for integer windows (no rounding) and for windows of several units (every time is lost)."
  },
  {
   "property": "C12",
   "status": "partial",
   "theorems": [
    "C12_approximated",
    "C12_matrix_partial",
    "C12_exact_partial",
    "C12_no_leak_refuted",
    "C12_full_entity_refuted"
   ],
   "note": "C12_approximated characterises which aggregations are approximated, and where. C12_matrix_partial (whole driver, any chunking, workers and arrival order; window of one absolute unit): every cell is the meaning of its feature at the row's own time, with the approximated aggregations valued at the greatest multiple of the window not after it. C12_exact_partial: features that use no approximated aggregation have exactly their value at the row's time. Hypotheses: the request is well formed (valid_request), approximated aggregations are used only where they are approximated and no feature there needs the full entity (separate), and some aggregation is not approximated. The last two are needed: C12_no_leak_refuted (if all aggregations are approximated, the other features are calculated at the present time, so rows see data from after their time) and C12_full_entity_refuted."
  },
  {
   "property": "C13",
   "status": "partial",
   "theorems": [
    "C13_crash_safe_partial",
    "C13_crash_safe_sequential",
    "C13_complete_run_partial",
    "C13_sequential_runs",
    "C13_same_name",
    "C13_twelve_hours_refuted",
    "C13_split_time_refuted",
    "C13_parallel_same_name_refuted",
    "C13_makedirs_race_refuted",
    "C13_numeric_times_refuted"
   ],
   "note": "Crash safety at every point of every interleaving when different processes use different file names (always for one process), and completeness for calls with unshared names. Refuted otherwise: cutoffs twelve hours apart and chunks of one cutoff share a name and overwrite each other, two workers sharing a name publish a partial file, the temp directory check races, numeric times fail."
  },
  {
   "property": "C14",
   "status": "partial",
   "theorems": [
    "C14_groups_partial",
    "C14_slice_order_refuted",
    "C14_windows_refuted"
   ],
   "note": "Proved: partition, dependency order, homogeneity, for every feature set and iteration order with distinct names. Refuted: a transform of a slice of an aggregation or direct feature is placed before it; windows of several units share a group with no window."
  },
  {
   "property": "C15",
   "status": "proved",
   "theorems": [
    "C15_plan_exact"
   ],
   "note": "The plan trie holds, at every path, exactly the features an independent inductive definition requires, split exactly into full and not full, for every feature list and every set of approximated features."
  },
  {
   "property": "C16",
   "status": "proved",
   "theorems": [
    "C16_trie_read_after_history",
    "C16_trie_get_node_app",
    "C16_trie_iter_exact",
    "C16_trie_iter_once",
    "C16_trie_iter_prefix_first"
   ],
   "note": "Trie of utils/trie.py as a map with default, for every operation history."
  },
  {
   "property": "C17",
   "status": "proved",
   "theorems": [
    "C17_find_forward_paths_exact",
    "C17_find_backward_paths_exact",
    "C17_has_unique_forward_path"
   ],
   "note": "Path enumeration is exact on every schema."
  },
  {
   "property": "C18",
   "status": "partial",
   "theorems": [
    "C18_backward_entities_deep",
    "C18_forward_entities_deep",
    "C18_backward_entities_deep_diverges",
    "C18_forward_entities_deep_diverges",
    "C18_deep_traversal_terminates_refuted"
   ],
   "note": "Exact on schemas without a reachable cycle; termination on every schema is refuted."
  },
  {
   "property": "C19",
   "status": "partial",
   "theorems": [
    "C19_last_time_exact_partial",
    "C19_last_time_updated_partial",
    "C19_idempotent",
    "C19_missing_child_time_refuted",
    "C19_parallel_relationships_refuted",
    "C19_before_1800_refuted",
    "C19_cycle_diverges_refuted"
   ],
   "note": "Exact for every acyclic entity set with single links, times after 1800 and no mixed children, for every processing order and every subset of updated entities; each of these hypotheses is shown necessary by a refutation. Idempotence is unconditional."
  },
  {
   "property": "C20",
   "status": "partial",
   "theorems": [
    "C20_round_trip",
    "C20_normalise_idempotent",
    "C20_spellings",
    "C20_name_parses",
    "C20_meaning",
    "C20_strings",
    "C20_capitals_refuted",
    "C20_repeated_unit_refuted",
    "C20_special_offset_refuted",
    "C20_name_of_millisecond_refuted"
   ],
   "note": "Round trips, normalisation and spellings proved for every duration built from units; refuted for capital letters, two spellings of one unit in a dictionary, wrapped pandas offsets, and the name of one millisecond."
  },
  {
   "property": "C21",
   "status": "proved",
   "theorems": [
    "C21_negation_involutive",
    "C21_subtract_is_add_negation",
    "C21_absolute_inverse",
    "C21_observations_refused",
    "C21_observations_recognised"
   ],
   "note": "For every duration, time and calendar."
  },
  {
   "property": "C22",
   "status": "partial",
   "theorems": [
    "C22_round_trip_partial",
    "C22_same_feature",
    "C22_loaded_valid",
    "C22_groupby_refuted",
    "C22_same_name_refuted"
   ],
   "note": "Round trip proved for every list of features built by the constructors, under the hypotheses of the record `saveable` (unique names identify definitions, primitives rebuilt from their arguments, no feature grouped by its own input). Both exceptions are real and are refuted with witnesses: a groupby feature whose input is its own grouping feature loses that input, and two definitions with one unique name collapse to the first. For any description whatsoever, loading gives only features the constructors accept, with relationships that end in indexes (C22_loaded_valid). JSON encoding itself is not modelled."
  },
  {
   "property": "C23",
   "status": "partial",
   "theorems": [
    "C23_lookup",
    "C23_history_partial",
    "C23_duplicate_refuted"
   ],
   "note": "Lookup is correct for any sequence of requests when (name, module) identifies a class; with two classes of the same name and module the answer depends on the history of earlier lookups (refuted)."
  },
  {
   "property": "C24",
   "status": "proved",
   "theorems": [
    "C24_dependencies",
    "C24_acyclic",
    "C24_depth",
    "C24_below_shallower"
   ],
   "note": "get_dependencies(deep) is exactly the set of features reachable through inputs, where and groupby; get_depth is the longest chain."
  },
  {
   "property": "C25",
   "status": "partial",
   "theorems": [
    "C25_depth_partial",
    "C25_seeds_partial",
    "C25_condition_refuted",
    "C25_parent_refuted",
    "C25_outputs_refuted"
   ],
   "note": "Every returned feature has depth at most max_depth + 1, and at most max_depth outside three exactly described cases (conditions at small depths, direct features of direct features or of outputs, direct features through a self relationship); each exceptional case is refuted with a witness. C25_depth_partial is for runs without seed features; C25_seeds_partial is for any seed features, with depths counted down to them."
  },
  {
   "property": "C26",
   "status": "proved",
   "theorems": [
    "C26_result"
   ],
   "note": "For every run that returns: distinct names, target entity, requested return types, ordered by depth, no index variable."
  },
  {
   "property": "C27",
   "status": "partial",
   "theorems": [
    "C27_ignored_partial",
    "C27_path_refuted"
   ],
   "note": "No definition contains a feature of an ignored entity or an ignored variable unless a primitive option includes it. Relationship paths may still cross an ignored entity (refuted: aggregations of grandchildren through an ignored child). What is part of a seed feature is excepted, as a seed may itself use an ignored variable."
  },
  {
   "property": "C28",
   "status": "proved",
   "theorems": [
    "C28_filters"
   ],
   "note": "drop_exact, drop_contains and max_features act as a filter and a prefix of the unfiltered result."
  },
  {
   "property": "C29",
   "status": "partial",
   "theorems": [
    "C29_terminates_partial",
    "C29_cycle_no_result",
    "C29_refuted"
   ],
   "note": "Termination proved for every entity set without a cycle of relationships, for every max_depth, primitive list and option. With a cycle below the target the search never returns (proved in general), witnessed by a self-referencing entity: the property is false there."
  },
  {
   "property": "C30",
   "status": "partial",
   "theorems": [
    "C30_match_exact",
    "C30_commutative",
    "C30_commutative_typed",
    "C30_commutative_refuted"
   ],
   "note": "Exact for ordered primitives and for commutative primitives whose inputs share one type (all of the library's). For a commutative primitive with different input types the sorted order can break the signature (refuted). Pools: features of one entity with distinct names, which is what DFS builds."
  },
  {
   "property": "C31",
   "status": "partial",
   "theorems": [
    "C31_input",
    "C31_groupby",
    "C31_tuples",
    "C31_entity",
    "C31_globals_honoured",
    "C31_options_kept",
    "C31_documented_partial",
    "C31_priority_refuted",
    "C31_dfs",
    "C31_condition_refuted"
   ],
   "note": "Which inputs, tuples and entities pass is characterised exactly, and C31_dfs lifts this to every feature inside every definition dfs returns that is not itself part of a seed feature. The documented priority of include over ignore options holds when no entity is in both lists and is refuted when one is; conditions (where clauses) ignore the options (refuted)."
  },
  {
   "property": "C32",
   "status": "partial",
   "theorems": [
    "C32_one_hot_partial",
    "C32_drop_first_dict_refuted",
    "C32_same_name_refuted"
   ],
   "note": "For every matrix, feature list and option, when the names the encoding may use are new and different: labels, counts, indicator values and exactly one true indicator per row. Refuted without it (two features share an indicator column); drop_first with a dictionary top_n always raises."
  },
  {
   "property": "C33",
   "status": "partial",
   "theorems": [
    "C33_columns_partial",
    "C33_features_compute_columns_partial",
    "C33_other_columns_unchanged_partial",
    "C33_other_column_overwritten_refuted",
    "C33_repeated_feature_refuted"
   ],
   "note": "Same naming condition; refuted without it."
  },
  {
   "property": "C34",
   "status": "partial",
   "theorems": [
    "C34_partial",
    "C34_threshold_checked",
    "C34_at_threshold_refuted"
   ],
   "note": "Kept exactly when the share of nulls is strictly below the threshold, for every matrix; refuted for the documented boundary (a column at the threshold is removed)."
  },
  {
   "property": "C35",
   "status": "proved",
   "theorems": [
    "C35_single_value_exact",
    "C35_low_information_exact"
   ],
   "note": "For every matrix and feature list."
  },
  {
   "property": "C36",
   "status": "partial",
   "theorems": [
    "C36_partial",
    "C36_representative_refuted"
   ],
   "note": "Exact description of the kept columns for every correlation function; refuted: a dropped column need not be correlated with a kept one."
  },
  {
   "property": "C37",
   "status": "partial",
   "theorems": [
    "C37_features_match_matrix",
    "C37_low_information_refuted"
   ],
   "note": "The returned features are exactly those whose columns remain, for every selection function; refuted for remove_low_information_features with multi-output features."
  },
  {
   "property": "C38",
   "status": "partial",
   "theorems": [
    "C38_split_partial",
    "C38_lossless_partial",
    "C38_types_partial",
    "C38_same_name_refuted",
    "C38_dangling_refuted"
   ],
   "note": "Proved for every entity whose numeric and datetime variables are stored as such, when the new id differs from the base id and, if a secondary time index is made, inferred types need no conversion: the secondary time index and its variables come from the last row of each value. C38_types_partial: types of the moved, copied, index and remaining variables, and the time indexes of both entities. Refuted without: the base id given as new id destroys the data, and moving a variable that links to a parent leaves a dangling relationship."
  },
  {
   "property": "C39",
   "status": "partial",
   "theorems": [
    "C39_copy_variables_exact",
    "C39_copy_unchanged_partial",
    "C39_frame_partial",
    "C39_types",
    "C39_secondary_partial",
    "C39_copy_variables_refuted",
    "C39_frame_refuted",
    "C39_secondary_refuted",
    "C39_groupby_refuted"
   ],
   "note": "Exactly when the arguments come back unchanged is proved; variable_types is never changed (C39_types, with dictionaries as objects in a store); the unconditional property is refuted for copy_variables, the dataframe, secondary_time_index and GroupByTransformFeature base_features."
  },
  {
   "property": "C40",
   "status": "partial",
   "theorems": [
    "C40_union_partial",
    "C40_succeeds_partial",
    "C40_created_index_refuted",
    "C40_last_times_refuted"
   ],
   "note": "When concat returns, every entity of the result has the columns of the variables, a unique index, is in time order, contains every row of the first set and every row of the second whose index value is new, and nothing else; it does return for two equal sets with equal relationship lists whose index and time columns are sound and whose indexes were not created by the library. Refuted without: a library created index makes the call fail half way through with some rows already added; last time indexes appear although neither input had them."
  },
  {
   "property": "C41",
   "status": "partial",
   "theorems": [
    "C41_equal_exact",
    "C41_reflexive",
    "C41_symmetric_partial",
    "C41_transitive",
    "C41_symmetric_refuted"
   ],
   "note": "Equality of entity sets is exactly sameness of schema plus inclusion of the left relationships in the right ones; it is reflexive and transitive. Symmetry fails (witness: the right side has one more relationship) and is proved for equal numbers of distinct relationships."
  },
  {
   "property": "C42",
   "status": "partial",
   "theorems": [
    "C42_data_never_compared",
    "C42_deep_equality_refuted",
    "C42_deep_equality_partial"
   ],
   "note": "Deep equality does not compare the present values of the data frames: refuted with a witness; the part that is compared is proved."
  },
  {
   "property": "C43",
   "status": "partial",
   "theorems": [
    "C43_fresh_partial",
    "C43_entity_methods_refuted",
    "C43_rejected_relationship_refuted"
   ],
   "note": "Proved for every history of entity set calls (creation, normalisation, relationships, updates, concat in place, last time indexes, interesting values, metadata), failing calls included except rejected add_relationship / update_data / concat. Refuted for the methods of Entity and for a rejected add_relationship."
  },
  {
   "property": "C44",
   "status": "partial",
   "theorems": [
    "C44_history_partial",
    "C44_rejected_partial",
    "C44_accepted_iff_partial",
    "C44_again",
    "C44_rejected_refuted",
    "C44_empty_child_refuted"
   ],
   "note": "All histories of accepted and rejected calls over entities with rows; acceptance characterised exactly. Refuted: a rejected call keeps the changed variable types; with an empty child an accepted call can change the dtype under an earlier relationship."
  },
  {
   "property": "C45",
   "status": "partial",
   "theorems": [
    "C45_index_and_kind_partial",
    "C45_order_partial",
    "C45_failed_update_refuted",
    "C45_rejected_creation_refuted",
    "C45_moved_index_refuted",
    "C45_normalized_order_refuted",
    "C45_empty_frame_refuted"
   ],
   "note": "Over every history of the public mutators whose calls succeed and respect the stated side conditions. The full property is refuted: a failed update_data, a rejected creation, a normalize_entity that moves the index, already_sorted inherited by normalize_entity, and an empty frame each break it."
  },
  {
   "property": "C46",
   "status": "partial",
   "theorems": [
    "C46_count",
    "C46_sum",
    "C46_mean",
    "C46_num_unique",
    "C46_num_true",
    "C46_percent_true",
    "C46_any",
    "C46_all",
    "C46_min",
    "C46_max",
    "C46_std",
    "C46_mean_skipna_refuted"
   ],
   "note": "For every split of a column into partitions and every group: the partitioned form equals the single-table form, over rationals (floating-point rounding is not modelled). Refuted for Mean(skipna=False), which ignores the option on Dask."
  },
  {
   "property": "C47",
   "status": "proved",
   "theorems": [
    "C47_workers"
   ],
   "note": "Exact result for every n_jobs and CPU count."
  },
  {
   "property": "C48",
   "status": "partial",
   "theorems": [
    "C48_own_version_silent",
    "C48_digits_partial",
    "C48_two_digits_refuted"
   ],
   "note": "Exact for versions with the same number of one-digit components; refuted for two-digit components and for another number of components."
  },
  {
   "property": "C49",
   "status": "partial",
   "theorems": [
    "C49_size_and_number",
    "C49_start_and_number",
    "C49_size_and_start",
    "C49_one_window_refuted",
    "C49_last_is_cutoff_refuted"
   ],
   "note": "Exact for all three argument combinations; refuted: one window from a start divides by zero, and with a size and a start the last time need not be the cutoff."
  },
  {
   "property": "C50",
   "status": "partial",
   "theorems": [
    "C50_names_partial",
    "C50_unique_names_partial",
    "C50_distinct_partial",
    "C50_brackets_refuted",
    "C50_scalar_refuted",
    "C50_count_refuted",
    "C50_dot_refuted"
   ],
   "note": "Proved for all features made of word-named variables, values of parents, aggregations with conditions and windows, counts of the index, transforms and grouped transforms written NAME(...). The full statement is false: four refutations exhibit different definitions with one name and different values (unbracketed a - b - c, scalar 1 and '1', counts of different variables, variable names with dots)."
  },
  {
   "property": "C51",
   "status": "proved",
   "theorems": [
    "C51_cum_sum",
    "C51_cum_count",
    "C51_cum_min",
    "C51_cum_max",
    "C51_diff",
    "C51_cum_mean",
    "C51_matrix_grouped_partial",
    "C51_matrix_plain_partial"
   ],
   "note": "Each primitive in grouped and ungrouped form on every frame; the matrix theorems carry it through the whole calculator under the hypotheses of C06. Numbers are integers (CumMean: rationals)."
  },
  {
   "property": "C52",
   "status": "partial",
   "theorems": [
    "C52_observations_partial",
    "C52_window_partial",
    "C52_zero_observations_refuted"
   ],
   "note": "Through the whole calculator: an aggregation with use_previous sees exactly the last n matching rows (n > 0), or exactly those stamped at or after cutoff minus the delta. n = 0 keeps every row (refuted)."
  },
  {
   "property": "C53",
   "status": "partial",
   "theorems": [
    "C53_accepted_iff_unambiguous",
    "C53_accepted_frames_keep_rows",
    "C53_time_kind",
    "C53_index_named_time_refuted"
   ],
   "note": "Exact acceptance condition and result, when the index is not called time and the time index not instance_id; refuted for an index called time, for which no frame is accepted."
  },
  {
   "property": "C54",
   "status": "partial",
   "theorems": [
    "C54_round_trip_partial",
    "C54_equal_partial",
    "C54_last_times",
    "C54_secondary_refuted",
    "C54_link_type_refuted"
   ],
   "note": "Proved for the schema part of descriptions, for every entity set whose index, time index and link variables still have the types the library gives them: rebuilding succeeds, keeps ids, relationships and their order, index, time index, secondary time index, dtypes and every variable with its type, interesting values and description, and the two sets compare equal both ways. The data files are the subject of C71. Refuted without: a secondary time index without a time index makes rebuilding fail; a link type chosen by hand is replaced."
  },
  {
   "property": "C55",
   "status": "proved",
   "theorems": [
    "C55_requested",
    "C55_stacking"
   ],
   "note": "Every sub-feature of every returned definition that is not part of a seed feature given by the user. The inputs of every aggregation, transform and group-by match the first declared signature of its primitive, one input for each type."
  },
  {
   "property": "C56",
   "status": "partial",
   "theorems": [
    "C56_avg_time_between",
    "C56_too_few",
    "C56_unknown_unit",
    "C56_units",
    "C56_long_units",
    "C56_year_refuted",
    "C56_time_since"
   ],
   "note": "Times are integer nanoseconds, results rationals. Refuted: a year is neither twelve months nor 365 days."
  },
  {
   "property": "C57",
   "status": "proved",
   "theorems": [
    "C57_n_most_common",
    "C57_mode",
    "C57_mode_missing"
   ],
   "note": "For every order value_counts may give to equally frequent values."
  },
  {
   "property": "C58",
   "status": "partial",
   "theorems": [
    "C58_least_squares",
    "C58_unit",
    "C58_too_few",
    "C58_shift_refuted"
   ],
   "note": "The trend is the least-squares slope in the unit chosen by the first time. Refuted: shifting every time by one second changes it by a factor of 86400."
  },
  {
   "property": "C59",
   "status": "partial",
   "theorems": [
    "C59_matrix_partial",
    "C59_rows_independent_partial"
   ],
   "note": "The whole path from cutoff frame to feature matrix, under the hypotheses of C06 (valid_request) and no default that replaces a missing row silently; the counterexamples of C06, C07, C09 and C10 show what fails without them."
  },
  {
   "property": "C60",
   "status": "partial",
   "theorems": [
    "C60_count",
    "C60_sum",
    "C60_mean",
    "C60_mean_skipna",
    "C60_min",
    "C60_max",
    "C60_num_unique",
    "C60_num_true",
    "C60_percent_true",
    "C60_any",
    "C60_all",
    "C60_median",
    "C60_median_halves",
    "C60_std",
    "C60_std_call",
    "C60_std_refuted",
    "C60_first",
    "C60_last",
    "C60_order",
    "C60_first_last_depend_on_order",
    "C60_percentile"
   ],
   "note": "Every clause but one is proved, over rational columns (floating-point rounding is not modelled). The clause on Std is false: np.std handed to groupby.agg is the sample deviation, a direct call the population deviation (C60_std_refuted)."
  },
  {
   "property": "C61",
   "status": "partial",
   "theorems": [
    "C61_expression",
    "C61_one_entity",
    "C61_matrix_partial",
    "C61_negation_refuted",
    "C61_constant_logic",
    "C61_names"
   ],
   "note": "The value of the expression feature (S_Sem) is the value of the expression whenever the latter is defined and operand types are the declared ones; the matrix version has the hypotheses of C06. C61_negation_refuted shows that negating a comparison is not the opposite comparison for missing values; a feature cannot be combined with a constant by and/or. Division is in C89."
  },
  {
   "property": "C62",
   "status": "proved",
   "theorems": [
    "C10_arrival_order",
    "C10_arrival_order_single",
    "C10_arrival_calculated"
   ],
   "note": "Unconditional for the modelled calculator; for an arbitrary calculator with a cutoff frame too."
  },
  {
   "property": "C63",
   "status": "partial",
   "theorems": [
    "C63_answered_partial",
    "C63_correct_partial",
    "C63_matrix_partial",
    "C63_single_partial",
    "C63_answered_refuted"
   ],
   "note": "Without approximation: under the hypotheses of C06 (valid_request) and runnable (S_Total.v) the calculation succeeds and, with the default condition of C06, the result is exactly the matrix of meanings; C63_matrix_partial and C63_single_partial state it for the whole call, any chunk size, workers and arrival order. C63_answered_refuted: a transform of one output of an aggregation with several outputs raises KeyError."
  },
  {
   "property": "C64",
   "status": "partial",
   "theorems": [
    "C64_created",
    "C64_rows_partial",
    "C64_distinct_refuted"
   ],
   "note": "C64_created: index, columns, types, time index, other entities, for every successful call. C64_rows_partial: rows one for one and the values of every column whose type needs no conversion, if conversions keep the number of values. Refuted: without an index argument the first column is taken as index even when it is the time index."
  },
  {
   "property": "C65",
   "status": "partial",
   "theorems": [
    "C65_relationship_names",
    "C65_path_names_partial",
    "C65_path_entities",
    "C65_brackets_refuted",
    "C65_mutual_refuted"
   ],
   "note": "Names of relationships and entities of paths proved for every entity set. That a name identifies the path needs plain words as names and no two entities that are each other's parent; both exceptions are refuted with witnesses."
  },
  {
   "property": "C66",
   "status": "partial",
   "theorems": [
    "C66_kinds",
    "C66_types",
    "C66_no_second_index",
    "C66_transform_built",
    "C66_arity_refuted",
    "C66_direct_index_refuted"
   ],
   "note": "Types, hierarchy and the exact condition for building a transform proved. Refuted: the number of inputs is not checked, and a feature copied from a parent's index has type Index in the child."
  },
  {
   "property": "C67",
   "status": "partial",
   "theorems": [
    "C67_only_lineage",
    "C67_only_lineage_edges",
    "C67_all_lineage_partial",
    "C67_last_step",
    "C67_steps_partial",
    "C67_step_order_refuted",
    "C67_steps_groupby_refuted",
    "C67_renamed_refuted"
   ],
   "note": "Nothing foreign is drawn, and only the target is highlighted, for every feature. That the whole lineage is drawn and joined needs entity and name to tell its features apart; a feature renamed like a used column loses its inputs (refuted). Step numbers: the last is the feature's own; at least 1 when nothing is grouped by a feature. Refuted: an input and a feature using it can have the same step number, and with a computed groupby the numbers go below 1."
  },
  {
   "property": "C68",
   "status": "partial",
   "theorems": [
    "C68_columns",
    "C68_transforms",
    "C68_groupbys_partial",
    "C68_parents",
    "C68_children_partial",
    "C68_no_options",
    "C68_plain_name",
    "C68_groupby_direct_refuted",
    "C68_depth_refuted"
   ],
   "note": "Proved for every schema, primitive set, option and depth: columns of the target, transforms, grouped transforms and parents' variables, and aggregations of the variables of a child (of any entity below when depth is unlimited). Features are identified by entity and name, and names must differ. Missing: aggregations of computed features, and of entities more than one step down under a depth limit. Refuted: a grouped transform is never built when only the grouping feature comes from a parent; a larger max_depth can lose features, because an entity is visited once with the depth left at its first visit."
  },
  {
   "property": "C69",
   "status": "partial",
   "theorems": [
    "C69_only_used",
    "C69_all_used",
    "C69_returns",
    "C69_warning",
    "C69_not_listed_used",
    "C69_capitals_refuted",
    "C69_name_refuted"
   ],
   "note": "Proved for every list of features in which features of the same name are made alike. Refuted in two ways: a primitive given by a string with capitals, such as 'Sum', is accepted and used but reported as unused; and since features are remembered by name alone, a variable of another entity called like a feature hides the feature's primitive."
  },
  {
   "property": "C70",
   "status": "partial",
   "theorems": [
    "C70_inputs",
    "C70_custom",
    "C70_local",
    "C70_total",
    "C70_aggregation",
    "C70_output",
    "C70_parent",
    "C70_file",
    "C70_ordinals",
    "C70_condition_refuted",
    "C70_no_description_refuted",
    "C70_given_refuted",
    "C70_output_refuted",
    "C70_same_refuted",
    "C70_key_refuted"
   ],
   "note": "Proved for templates that show all their inputs (Count's does not) and, for existence, templates that take the inputs there are, nonempty given descriptions and conditions comparing with a value. Refuted: any condition is described as equality ('x > 5' as 'x is 5'), yes/no columns as conditions raise, an empty given description raises, given descriptions of intermediate parents' features and of features an output is taken of are skipped, outputs of grouped and parents' features lose the group or the parent, features through different links to one parent read the same, and a key that is the name followed by the entity is taken for the feature."
  },
  {
   "property": "C71",
   "status": "partial",
   "theorems": [
    "C71_round_trip_partial",
    "C71_sorted_partial",
    "C71_last_times",
    "C71_fresh",
    "C71_stopped",
    "C71_separator_refuted",
    "C71_digits_refuted",
    "C71_words_refuted",
    "C71_missing_refuted",
    "C71_replaced_refuted"
   ],
   "note": "Proved for every directory: the round trip for entity sets whose columns are their variables with data of the declared types (any values for pickle; no missing values in object columns for parquet; for csv, numbers, dates, booleans and texts that are not all numbers or missing-value words, with the separator ','), rows unsorted in time coming back sorted; the result of reading never depends on what was in the directory; a save stopped anywhere in a directory without a description cannot be read. Refuted: csv with another separator cannot be read, texts of digits come back as numbers and 'NA' as missing, parquet turns missing texts into 'nan', and a save stopped while replacing an earlier one is read as a mixture. Pandas' own reading and writing is written out for whole numbers, booleans, texts and missing values only; LatLong, archives, S3, Dask and Koalas are left out."
  },
  {
   "property": "C72",
   "status": "proved",
   "theorems": [
    "C72_chosen",
    "C72_interesting",
    "C72_again"
   ],
   "note": "For every column, max_values and order of ties (any permutation). Not modelled: the classes ZIPCode, CountryCode and SubRegionCode, which are treated like Categorical by the code, and the cast of the values to the dtype of the column."
  },
  {
   "property": "C73",
   "status": "partial",
   "theorems": [
    "C73_ordinary_partial",
    "C73_dfs_matrix_partial",
    "C73_dfs_single_partial"
   ],
   "note": "Proved from the caller's side only: the hypotheses speak about the schema, the names, the primitives and the data, not about the features found. They are: names are words, no seed features, no cycle of relationships, primitives that return as many values as asked (and booleans for the conditions), at most one primitive that counts the way pandas does, no transform over a whole entity when an entity has a grandparent, and for aggregations of several columns that no visible row lacks an owner and that their value over no rows is missing. Missing: approximation, seed features; where the last hypotheses fail the claim is refuted elsewhere (C06, C63)."
  },
  {
   "property": "C74",
   "status": "partial",
   "theorems": [
    "C74_same_features_partial",
    "C74_same_list_partial",
    "C74_ordinary_partial",
    "C74_conditions_refuted",
    "C74_case_refuted"
   ],
   "note": "Proved for searches without seed features in which no two features the listed primitives can make of the columns share a name (proved of ordinary searches, C73), also when case is ignored if a primitive is commutative: the same features with no max_features, the same list with no interesting values. Refuted without: C74_conditions_refuted shows two different results for two orders of the set of conditions under max_features, C74_case_refuted two names for the sum of columns a and A."
  },
  {
   "property": "C75",
   "status": "partial",
   "theorems": [
    "C75_accepted",
    "C75_answered",
    "C75_order_partial",
    "C75_order_refuted",
    "C75_where_refuted"
   ],
   "note": "Which requests are accepted is characterised in full for pandas-like entity sets (compatibility is a flag per primitive). The order and spelling of the lists is shown not to matter when no two different primitives of a list share name and shown arguments and no two seeds share a unique name; otherwise it does (C75_order_refuted: two primitives made from one function). Not modelled: type errors for ignore_entities and ignore_variables, arguments that are not primitive classes."
  },
  {
   "property": "C76",
   "status": "partial",
   "theorems": [
    "C76_computes",
    "C76_named",
    "C76_refused",
    "C76_default_value",
    "C76_saved_partial",
    "C76_settings_lost",
    "C76_input_default",
    "C76_saved_refuted",
    "C76_default_value_refuted",
    "C76_arguments_refuted",
    "C76_time_refuted"
   ],
   "note": "What is computed is proved for functions whose data parameters come first and have no defaults; with a default on an input every calculation raises (C76_input_default). Saving is proved to keep only primitives without settings and refuted otherwise. Not modelled: *args, **kwargs, keyword-only parameters, cls_attributes."
  },
  {
   "property": "C77",
   "status": "partial",
   "theorems": [
    "C77_deserved_partial",
    "C77_deserved_once",
    "C77_columns_partial",
    "C77_rows_partial",
    "C77_leftover_refuted",
    "C77_rows_refuted",
    "C77_sample_refuted",
    "C77_string_refuted"
   ],
   "note": "Proved for columns with up to 10000 rows that are not empty columns of dtype string or of an unusual dtype, and (order of rows) whose values are all or none datetime objects; the exceptions are refuted. Whether a value reads as a number or a date is decided value by value (pandas)."
  },
  {
   "property": "C78",
   "status": "partial",
   "theorems": [
    "C78_parts_partial",
    "C78_frames_partial",
    "C78_relationships_partial",
    "C78_dfs_partial",
    "C78_shared_refuted",
    "C78_relationships_refuted"
   ],
   "note": "Proved for frames that are different objects, in any order, and for relationships in any order when no frame is empty. Refuted otherwise: a frame given for two entities shows the second one the index made for the first, and a column of an empty frame that refers to two entities is accepted in one order of the relationships only."
  },
  {
   "property": "C79",
   "status": "partial",
   "theorems": [
    "C79_distance",
    "C79_symmetric",
    "C79_range",
    "C79_triangle",
    "C79_turn",
    "C79_units",
    "C79_columns_partial",
    "C79_columns_refuted"
   ],
   "note": "Distances are proved over the real numbers (rounding is not modelled), with the axioms of the standard library's real numbers. The columns are proved when the labels of rows without a place are row numbers; a missing place with any other label makes Latitude, Longitude and Haversine fail."
  },
  {
   "property": "C80",
   "status": "partial",
   "theorems": [
    "C80_value",
    "C80_range",
    "C80_rows",
    "C80_names",
    "C80_dropna_refuted"
   ],
   "note": "Proved over the real numbers (rounding is not modelled), with the axioms of the standard library's real numbers. The documented meaning of dropna (True: missing values are a category) is refuted: it is the other way round."
  },
  {
   "property": "C81",
   "status": "partial",
   "theorems": [
    "C81_calendar",
    "C81_date",
    "C81_week",
    "C81_week_partial",
    "C81_week_refuted",
    "C81_clock",
    "C81_missing"
   ],
   "note": "The algorithms that the primitives call are those of pandas, written down from its C code, without its bounds on years and without time zones. Week is the ISO week; the documented week is proved in years that begin with a Monday to Thursday, up to the week that ends the year, and refuted otherwise (January 1, 2021 is in week 53)."
  },
  {
   "property": "C82",
   "status": "partial",
   "theorems": [
    "C82_birthday_partial",
    "C82_early_refuted",
    "C82_missing"
   ],
   "note": "Proved from the birthday on, with the bound on that day; refuted before it: Age divides days by 365, so it reaches k up to one day per leap day before the k-th birthday."
  },
  {
   "property": "C83",
   "status": "partial",
   "theorems": [
    "C83_words_partial",
    "C83_words_refuted",
    "C83_characters"
   ],
   "note": "Exactly the texts with single spaces between their words get their number of words; refuted for others: empty and missing texts have one word, spaces at the ends and double spaces count, line breaks do not. Characters are bytes in the model."
  },
  {
   "property": "C84",
   "status": "partial",
   "theorems": [
    "C84_copy",
    "C84_inplace_partial",
    "C84_again",
    "C84_inplace_refuted",
    "C84_failed_refuted"
   ],
   "note": "Proved: results agree, a copy protects the caller, and in place the caller's matrix has the result's columns name by name; a second call with the old features is then refused. Refuted: the order of the columns differs, and a call that fails leaves the matrix half encoded."
  },
  {
   "property": "C85",
   "status": "partial",
   "theorems": [
    "C85_rows",
    "C85_steps",
    "C85_total",
    "C85_average",
    "C85_unknown_unit",
    "C85_missing_refuted"
   ],
   "note": "The sum and mean are proved for columns without missing times, with exact rationals. Refuted with missing times: the gap across a missing row is lost by TimeSincePrevious and counted by AvgTimeBetween."
  },
  {
   "property": "C86",
   "status": "proved",
   "theorems": [
    "C86_sequential",
    "C86_share",
    "C86_parallel"
   ],
   "note": "For exact rationals; with floating point the last percentage may differ in the last digit. Chunks hold at most the requested cutoffs (C09). C86_share: with nothing precalculated the calculation accounts for exactly 95 percent."
  },
  {
   "property": "C87",
   "status": "partial",
   "theorems": [
    "C87_commutative_partial",
    "C87_subtract_refuted",
    "C87_not_commutative",
    "C87_kept_partial"
   ],
   "note": "Refuted for SubtractNumeric, which is marked by default although swapping gives the opposite values. Division is in C89; for Haversine see C79. Numbers are integers."
  },
  {
   "property": "C88",
   "status": "partial",
   "theorems": [
    "C88_accepted",
    "C88_kept",
    "C88_used",
    "C88_warned",
    "C88_error_partial",
    "C88_error_refuted",
    "C88_all_accepted",
    "C88_read",
    "C88_unknown_partial",
    "C88_unknown_refuted"
   ],
   "note": "Refuted for the last sentence: a misspelt primitive name with one dict of options is accepted silently; it is only reported when a list of dicts is given. Also refuted: a misspelt option for a primitive class is reported with a TypeError of the message instead of the KeyError."
  },
  {
   "property": "C89",
   "status": "partial",
   "theorems": [
    "C89_exact",
    "C89_by_zero",
    "C89_missing",
    "C89_built",
    "C89_hidden_refuted",
    "C89_name_refuted"
   ],
   "note": "Values, missing values and divisions by zero are proved on exact fractions (no rounding, one zero). Refuted: 1 / (a / b) is 0 where b is 0, an ordinary number; (a + b) / c and a + b / c get the same name."
  },
  {
   "property": "C90",
   "status": "partial",
   "theorems": [
    "C90_returned_partial",
    "C90_replaced_refuted",
    "C90_column_refuted"
   ],
   "note": "Proved: a feature of the target with the name of the seed is returned, for seeds that are not the target's index or named like it. Refuted: that feature need not be the seed, as a feature built later under the same name silently replaces it; and a seed named like a column replaces the column."
  },
  {
   "property": "C91",
   "status": "partial",
   "theorems": [
    "C91_described",
    "C91_complete",
    "C91_once",
    "C91_settled_partial",
    "C91_choice_refuted",
    "C91_inputs_refuted"
   ],
   "note": "The same classes are described in every process when names differ by more than case. Refuted: of two primitives whose names differ only in case, the order of a set decides which is listed and used under the name; and the text of valid_inputs depends on the order of a set."
  },
  {
   "property": "C92",
   "status": "partial",
   "theorems": [
    "C92_load",
    "C92_import_refuted",
    "C92_files_partial",
    "C92_directory_refuted"
   ],
   "note": "Loading is characterised exactly: one name bound to a primitive other than the two base classes. Refuted: a file that imports the primitive its own class extends is refused. Listing is exact when no file is named like a directory of the current directory; otherwise the file is not listed (refuted), because directories are looked up from the current directory. Running the file itself is not modelled."
  },
  {
   "property": "C93",
   "status": "partial",
   "theorems": [
    "C93_entities",
    "C93_relationships",
    "C93_connected_partial",
    "C93_colon_refuted",
    "C93_label_refuted",
    "C93_saved",
    "C93_refused",
    "C93_deletes_refuted",
    "C93_path_refuted"
   ],
   "note": "Edges end at the drawn entities when no entity name has a colon (refuted otherwise: the part after it is taken for a port). Two relationships may be drawn alike (refuted). The picture is in the named file, but a file with that name less its extension is overwritten and deleted (refuted), and a Path is not accepted although its format is read (refuted). Rendering, and characters special in record labels, are not modelled."
  },
  {
   "property": "C94",
   "status": "partial",
   "theorems": [
    "C94_spelling",
    "C94_small",
    "C94_rule",
    "C94_words",
    "C94_apart_partial",
    "C94_apart_refuted",
    "C94_read_back_partial",
    "C94_read_sound",
    "C94_named",
    "C94_listed",
    "C94_text_refuted",
    "C94_taken_refuted"
   ],
   "note": "The spelling rule holds for every ASCII name. Names made of capitalised words have different type strings; other names need not (refuted: ZIPCode and ZipCode), and then a saved variable of the library's type comes back as the user's (refuted). A saved Text variable comes back as Unknown, although Text may be named for an entity (refuted). The rest is proved for types whose type string is not shared."
  },
  {
   "property": "C95",
   "status": "partial",
   "theorems": [
    "C95_transparent_partial",
    "C95_runs",
    "C95_told_partial",
    "C95_arguments",
    "C95_failing_refuted",
    "C95_interrupted_refuted",
    "C95_shared_refuted"
   ],
   "note": "Proved for entry points whose reports do not fail; a failing report hides the value or the error or keeps the function from running (refuted). An interrupted call is never reported as ended (refuted). Later entry points see what earlier ones put in the dictionary (refuted); the first sees exactly the arguments given. Running times and changes inside argument objects are not modelled."
  },
  {
   "property": "C96",
   "status": "partial",
   "theorems": [
    "C96_levels",
    "C96_valid",
    "C96_messages_partial",
    "C96_handlers_refuted",
    "C96_backend",
    "C96_backend_refuted"
   ],
   "note": "Messages are written once when the loggers had at most one handler before; with two, one stays and the message is written twice (refuted: the list is changed while it is walked). The backend variable sets a logger no module uses (computation_backend, not computational_backend), so it has no effect (refuted, and proved for every environment). Wrong levels are reported by AttributeError."
  },
  {
   "property": "C97",
   "status": "partial",
   "theorems": [
    "C97_cleaned_partial",
    "C97_kept",
    "C97_empty_refuted",
    "C97_flag_refuted",
    "C97_first_refuted",
    "C97_category_refuted"
   ],
   "note": "Proved for columns of tuples or lists of numbers without missing rows, and columns of single values. A dataframe without rows is an error (refuted), a missing coordinate becomes the same as -1 (refuted), a column is treated by its first row only (refuted), and a category of integers with a missing value is an error (refuted). Numbers are integers in the model."
  }
 ]
}