# Formal model of featuretools in Rocq (Coq 8.16.1)

## How the development is organised

`rocq/theories/` is mapped to the logical name `Verif`. Per area there are up to four kinds of files:

* `M_*.v`: the model. Total Gallina functions that follow the Python branch by branch. Exceptions are values of
  the type `res`. Every definition cites the file and lines it models and says where it simplifies.
* `S_*.v`: the specification. Small definitions in the terms of the English property; they use the vocabulary of
  tables, features and relationships but not the algorithms of the model.
* `L_*.v`: lemmas.
* `P_*.v`: the property theorems (`Cnn_...`), examples that show their hypotheses are met by concrete cases
  (`Cnn_nonvacuous` and others), counterexamples, and `Print Assumptions`.

`Base.v` has the shared vocabulary, `BaseFacts.v` facts about it, `X_Demo.v` small runs.

Three kinds of theorem names matter:

* no suffix: the property, or a clause of it, in full;
* `_partial`: proved under hypotheses that the English property does not have. The manifest note says what is missing;
* `_refuted`: the property, or a clause, is false of the model (and, as far as the reading of the code is right, of
  the code). The theorem gives a concrete input. Refutations stand beside the strongest true statement found.

A property with a refuted or partial clause has status `partial` in `MANIFEST.json`.

## Modelling conventions

* Values: `val` = null, number, boolean, string. Numbers in cells are exact integers; statistics that divide are over
  exact rationals (`Qc`). Floating point, overflow and rounding are not modelled. Times are integers (nanoseconds), so
  numeric and datetime time indexes are treated alike where the code does.
* A data frame is a list of columns plus a list of rows. The pandas operations the code uses (boolean masks, `isin`, left merge
  on an index, `groupby` with dropped null keys, `drop_duplicates`, `sort_values`, `concat`, `reindex`, `fillna`, `iloc`)
  are written out as list functions. Their agreement with pandas is trusted.
* A Python `dict` is an association list in insertion order. A Python `set` is a duplicate-free list whose iteration
  order is a parameter that the theorems quantify over.
* Exceptions are values; calls that fail half way return the changed state together with the error (`M_Entities.v`).
* Recursion that Python does not bound has fuel; running out of fuel is an error of its own (`OutOfFuel`), and
  separate theorems say when it cannot happen (C18, C29, C63).
* Primitive functions are parameters of the calculator model, so the calculator theorems hold for every user-defined
  primitive; many standard primitives are also modelled concretely (`M_Prims*.v`, `M_Expr.v`, `M_Names.v`).
* Concurrency (workers, arrival order, interleaved file writes) is modelled by quantifying over orders and interleavings.

## What is modelled, file by file

| file in /repo/featuretools | model | not modelled |
|---|---|---|

| computational_backends/calculate_feature_matrix.py | `M_CFM.v`, `M_Approx.v`, `M_Report.v` (progress callback) | progress bar (display), Dask/Koalas inputs, Dask cluster, dtype casts, warnings |
| computational_backends/feature_set.py | `M_FeatureSet.v` | - |
| computational_backends/feature_set_calculator.py | `M_Calc.v`, `M_Report.v` (progress callback) | Dask/Koalas branches (the partitioned aggregations are in `M_Prims.v`), categorical dtypes |
| computational_backends/utils.py | `M_CFM.v`, `M_Time.v`, `M_Progress.v` | `create_client_and_cluster`, `get_client_cluster` |
| entityset/entity.py, utils/entity_utils.py | `M_Entities.v`, `M_Table.v`, `M_Args.v` (the variable_types object), `M_Infer.v` (type inference, a parameter in `M_Entities.v`) | `__sizeof__`, `__repr__`, Dask/Koalas |
| entityset/entityset.py | `M_Entities.v`, `M_Schema.v`, `M_Query.v`, `M_LastTime.v`, `M_Interesting.v`, `M_Files.v`, `M_Construct.v` (the constructor), `M_Plot.v` (`plot`, with utils/plot_utils.py) | `__repr__` |
| entityset/relationship.py | `M_Schema.v`, `M_Feature.v` | `__repr__` |
| entityset/serialize.py, deserialize.py | `M_Entities.v` (the description), `M_Files.v` (the data files and directories) | archives, S3 and URLs, Dask, Koalas, LatLong parsing, fractions and dates as text |
| entityset/timedelta.py, utils/time_utils.py | `M_Time.v` | calendar arithmetic itself (`relativedelta` is an abstract function) |
| feature_base/feature_base.py | `M_Feature.v`, `M_Types.v`, `M_Serialize.v`, `M_Expr.v`, `M_Divide.v` (division) | `__repr__` |
| feature_base/feature_descriptions.py, utils/description_utils.py | `M_Words.v` | reading the metadata file |
| feature_base/feature_visualizer.py | `M_Lineage.v` | graphviz, HTML escaping, caption, files |
| feature_base/features_serializer.py, features_deserializer.py | `M_Serialize.v` | JSON text, S3 and files |
| primitives/base/* | `M_Feature.v`, `M_Names.v`, `M_Serialize.v`, `M_Setup.v` (order, arguments), `M_Make.v` (primitives made from functions) | `cls_attributes`, `__call__` of a primitive |
| primitives/options_utils.py | `M_Match.v`, `M_Options.v` (type checks and warnings) | text of the messages |
| primitives/standard/aggregation_primitives.py | `M_Prims.v`, `M_Prims2.v`, `M_Prims3.v`, `M_Entropy.v` | Skew (a SciPy call) |
| primitives/standard/cum_transform_feature.py | `M_Prims.v` | - |
| primitives/standard/binary_transform.py | `M_Expr.v`, `M_Commute.v`, `M_Names.v`, `M_Divide.v` (division) | categorical dtypes, rounding |
| primitives/standard/transform_primitive.py | `M_Prims.v` (Diff), `M_Prims2.v` (TimeSince), `M_Prims3.v` (Percentile), `M_Previous.v` (TimeSincePrevious), `M_Geo.v` (Latitude, Longitude, Haversine), `M_Calendar.v` (Year, Month, Day, Weekday, Week, IsWeekend, Hour, Minute, Second, Age), `M_Text.v` (NumWords, NumCharacters), `M_Expr.v` (IsNull, Absolute, Negate, Not, IsIn); TimeSincePrevious in the counterexamples of C07, C09 and C10 | - |
| primitives/utils.py | `M_Serialize.v` (`PrimitivesDeserializer`), `M_Listing.v` (listing, files) | running a primitive file, `get_default_*` |
| selection/selection.py | `M_Select.v` | the correlation function (a parameter) |
| synthesis/deep_feature_synthesis.py | `M_DFS.v`, `M_Match.v`, `M_Setup.v` (constructor) | type checks of ignore_entities and ignore_variables, Dask/Koalas exclusions, warnings; multi-signature primitives use their first signature only as the code does |
| synthesis/dfs.py | `M_DFS.v`, `M_Unused.v` (unused primitives), `M_Construct.v` (the entity set made from the arguments) | features_only plumbing, warnings text |
| synthesis/encode_features.py | `M_Encode.v`, `M_EncodeInplace.v` | verbose |
| utils/gen_utils.py, utils/wrangle.py | `M_Time.v`, `M_Entities.v` | import checks |
| utils/trie.py | `M_Trie.v` | - |
| variable_types/variable.py | `M_Types.v` | default values and descriptions (a parameter in `M_Words.v`) |
| variable_types/utils.py, utils/gen_utils.py (camel_to_snake, find_descendents) | `M_VTypes.v` | graph_variable_types, descriptions; non-ASCII class names |
| utils/entry_point.py | `M_Observe.v` | running times, finding and loading the entry points |
| config_init.py | `M_Logging.v` (`initialize_logging`) | `Config`, text format of messages |
| utils/koalas_utils.py | `M_Koalas.v` | repeated column names, categorical columns of tuples |
| demo/, __main__.py, utils/cli_utils.py, utils/s3_utils.py | - | everything: example data, command line, remote files |

## Per property: what is modelled, how it is proved, result


### C01: No data after the cutoff reaches a feature value

* Modelled: `run`, `_calculate_features_for_entity`, the handlers, `query_by_values`, `_handle_time`, the driver.
* Proof: the result is a function of the visible tables only (relational induction over the trie), lifted to chunks and workers.
* Status: partial. Proved for one calculation and for the whole driver with chunks, workers and arrival orders; each row depends only on the data at its own time (C01_rows_partial, under the hypotheses of C06). Proved for the whole feature set calculation at one cutoff, for all schemas, data, features and instances, when no secondary time index hides an index, time index or link column; without that the property is refuted (rows are selected by the raw link column).
* Theorems: `C01_no_leakage`, `C01_matrix`, `C01_meaning`, `C01_rows_partial`, `C01_hidden_link_refuted`.

### C02: Cutoff and training-window boundaries are exact

* Modelled: `_handle_time`, `query_by_values`.
* Proof: pointwise characterisation of the returned rows.
* Status: proved. Row visibility boundaries of query_by_values for every table, cutoff and window.
* Theorems: `C02_window_boundaries`, `C02_no_time_index`.

### C03: A training window does not let future events select rows

* Modelled: `_handle_time` with last time index.
* Proof: refutation by a witness; positive theorem without last time indexes.
* Status: partial. Refuted when last time indexes exist: a child event after the cutoff selects an old parent row. Proved without last time indexes (or with equal ones): the query result depends only on data known at the cutoff.
* Theorems: `C03_query_ignores_future_partial`, `C03_future_child_refuted`.

### C04: Secondary time index hides exactly the not-yet-known columns

* Modelled: secondary masks of `_handle_time`.
* Proof: cell-level characterisation; boundary refutation.
* Status: partial. The exact masking rule is C05_query_by_values_exact. The stated property is refuted: the secondary mask uses >= even when the cutoff is included, and chained secondary indexes lose values.
* Theorems: `C05_query_by_values_exact`, `C04_secondary_boundary_refuted`, `C04_chained_secondary_refuted`.

### C05: query_by_values is an exact, order-preserving filter

* Modelled: `query_by_values`, `_vals_to_series`.
* Proof: equality with a `filter` specification.
* Status: proved. query_by_values returns exactly the visible, matching rows, in order, with hidden cells missing.
* Theorems: `C05_query_by_values_exact`, `C05_query_without_time`, `C05_observation_window_rejected`.

### C06: Computed values equal the meaning of the feature definition

* Modelled: calculator, feature trie, feature groups.
* Proof: refinement to a recursive denotation of features (`S_Sem.v`), by induction over the trie and over groups.
* Status: partial. For every request that returns, any stacking depth, entity set, instances, cutoff and window: columns, rows and every value equal the recursive meaning (S_Sem.v). Hypotheses: clear_names (a column name has one origin) and plain_features (S_Value.v); without approximate or precalculated features. The refuted theorems show why those hypotheses are needed: null results replaced by the default, a condition that is also an input, deep paths over one of two relationships, empty use_previous windows, renamed identity features. Direct features called like a link column (what DFS builds on three-level schemas) are covered as long as no feature needs its whole entity; C06_link_full_refuted shows that with one the value depends on which other instances are requested.
* Theorems: `C06_values_partial`, `C06_entries_partial`, `C06_null_result_refuted`, `C06_condition_input_refuted`, `C06_two_relationships_refuted`, `C06_empty_window_refuted`, `C06_renamed_identity_refuted`, `C06_link_full_refuted`.

### C07: A value does not depend on which other instances or features are requested

* Modelled: the same.
* Proof: corollary of C06; refutation for TimeSincePrevious.
* Status: partial. Two requests that return and share a feature and an instance hold the same value, under the hypotheses of C06. Refuted in general: a direct feature or a count with a renamed copy cannot be calculated together, and TimeSincePrevious depends on the other instances.
* Theorems: `C07_independent_partial`, `C07_pointwise_partial`, `C07_renamed_direct_refuted`, `C07_two_counts_refuted`, `C07_time_since_previous_refuted`.

### C08: Every requested instance gets a row; unknown ones get defaults

* Modelled: `run`, `generate_default_df`.
* Proof: characterisation of the row list.
* Status: partial. One row per requested id in request order when ids are distinct; ids without a visible row get the defaults. Duplicated unknown ids raise or give two rows (refuted). That a request returns is a hypothesis.
* Theorems: `C08_rows_partial`, `C08_defaults_partial`, `C08_duplicate_refuted`.

### C09: Chunking neither loses, duplicates nor reorders work

* Modelled: `_chunk_dataframe_groups`, `_handle_chunk_size`.
* Proof: list induction.
* Status: partial. Refuted in general: TimeSincePrevious changes with the chunk size. Chunks partition the cutoff frame grouped by time for every chunk size; the returned matrix is the same for every chunk size, for every calculator whose values for an instance do not depend on the other instances of the call (C07).
* Theorems: `C09_chunks_exact`, `C09_chunk_size`, `C10_schedule_and_chunk_independent`, `C10_calculated_partial`, `C09_chunk_size_refuted`.

### C10: The matrix is independent of worker scheduling

* Modelled: `parallel_calculate_chunks`, final reindex.
* Proof: permutation invariance.
* Status: partial. The arrival order of chunks never matters, for any calculator. The number of workers matters for TimeSincePrevious (refuted). Otherwise: For every calculator that is pointwise (C07), every number of workers, chunk size and arrival order.
* Theorems: `C10_matrix_answers_requests`, `C10_single_cutoff_answers`, `C10_schedule_and_chunk_independent`, `C10_driver_total`, `C10_arrival_order`, `C10_arrival_order_single`, `C10_arrival_calculated`, `C10_calculated_partial`, `C10_workers_refuted`.

### C11: Approximation rounds cutoffs down to the window grid

* Modelled: `bin_cutoff_times`, `datetime_round`.
* Proof: integer arithmetic; refutations.
* Status: partial. Proved for every window of one fixed unit and every cutoff frame; refuted for integer windows (no rounding) and for windows of several units (every time is lost).
* Theorems: `C11_rounds_down`, `C11_rounding_laws`, `C11_integer_window_refuted`, `C11_several_units_refuted`.

### C12: Approximation changes only the approximated aggregations

* Modelled: `calculate_chunk`, `approximate_features`, `gather_approximate_features`.
* Proof: refinement to the meaning with approximated aggregations at the binned time.
* Status: partial. C12_approximated characterises which aggregations are approximated, and where. C12_matrix_partial (whole driver, any chunking, workers and arrival order; window of one absolute unit): every cell is the meaning of its feature at the row's own time, with the approximated aggregations valued at the greatest multiple of the window not after it. C12_exact_partial: features that use no approximated aggregation have exactly their value at the row's time. Hypotheses: the request is well formed (valid_request), approximated aggregations are used only where they are approximated and no feature there needs the full entity (separate), and some aggregation is not approximated. The last two are needed: C12_no_leak_refuted (if all aggregations are approximated, the other features are calculated at the present time, so rows see data from after their time) and C12_full_entity_refuted.
* Theorems: `C12_approximated`, `C12_matrix_partial`, `C12_exact_partial`, `C12_no_leak_refuted`, `C12_full_entity_refuted`.

### C13: save_progress survives a crash at any point and loses no cutoff

* Modelled: `save_csv_decorator` as a file-system trace.
* Proof: invariant over every prefix of every interleaving.
* Status: partial. Crash safety at every point of every interleaving when different processes use different file names (always for one process), and completeness for calls with unshared names. Refuted otherwise: cutoffs twelve hours apart and chunks of one cutoff share a name and overwrite each other, two workers sharing a name publish a partial file, the temp directory check races, numeric times fail.
* Theorems: `C13_crash_safe_partial`, `C13_crash_safe_sequential`, `C13_complete_run_partial`, `C13_sequential_runs`, `C13_same_name`, `C13_twelve_hours_refuted`, `C13_split_time_refuted`, `C13_parallel_same_name_refuted`, `C13_makedirs_race_refuted`, `C13_numeric_times_refuted`.

### C14: Features are evaluated in dependency order, in homogeneous groups

* Modelled: `group_features`, `_get_feature_depths`.
* Proof: partition and topological order, for every iteration order of sets.
* Status: partial. Proved: partition, dependency order, homogeneity, for every feature set and iteration order with distinct names. Refuted: a transform of a slice of an aggregation or direct feature is placed before it; windows of several units share a group with no window.
* Theorems: `C14_groups_partial`, `C14_slice_order_refuted`, `C14_windows_refuted`.

### C15: The calculation plan is closed under dependencies and full-entity needs

* Modelled: `FeatureSet` and its trie.
* Proof: equality with an inductive definition of what is needed.
* Status: proved. The plan trie holds, at every path, exactly the features an independent inductive definition requires, split exactly into full and not full, for every feature list and every set of approximated features.
* Theorems: `C15_plan_exact`.

### C16: Trie behaves as a map from paths to values

* Modelled: `Trie`.
* Proof: map laws by induction on paths.
* Status: proved. Trie of utils/trie.py as a map with default, for every operation history.
* Theorems: `C16_trie_read_after_history`, `C16_trie_get_node_app`, `C16_trie_iter_exact`, `C16_trie_iter_once`, `C16_trie_iter_prefix_first`.

### C17: find_forward_paths returns exactly the simple forward paths

* Modelled: path enumeration.
* Proof: soundness, completeness, no duplicates, on all graphs.
* Status: proved. Path enumeration is exact on every schema.
* Theorems: `C17_find_forward_paths_exact`, `C17_find_backward_paths_exact`, `C17_has_unique_forward_path`.

### C18: Deep traversal yields every path to a related entity and terminates

* Modelled: deep traversals.
* Proof: exact on acyclic graphs, non-termination on a cycle.
* Status: partial. Exact on schemas without a reachable cycle; termination on every schema is refuted.
* Theorems: `C18_backward_entities_deep`, `C18_forward_entities_deep`, `C18_backward_entities_deep_diverges`, `C18_forward_entities_deep_diverges`, `C18_deep_traversal_terminates_refuted`.

### C19: Last time index is the latest event in the instance's subtree

* Modelled: `add_last_time_indexes` worklist.
* Proof: invariant over processing orders.
* Status: partial. Exact for every acyclic entity set with single links, times after 1800 and no mixed children, for every processing order and every subset of updated entities; each of these hypotheses is shown necessary by a refutation. Idempotence is unconditional.
* Theorems: `C19_last_time_exact_partial`, `C19_last_time_updated_partial`, `C19_idempotent`, `C19_missing_child_time_refuted`, `C19_parallel_relationships_refuted`, `C19_before_1800_refuted`, `C19_cycle_diverges_refuted`.

### C20: Timedelta save/load and normalisation round-trip

* Modelled: `Timedelta` construction, `get_arguments`, `from_dictionary`, `_check_timedelta`.
* Proof: round trips by cases and list induction.
* Status: partial. Round trips, normalisation and spellings proved for every duration built from units; refuted for capital letters, two spellings of one unit in a dictionary, wrapped pandas offsets, and the name of one millisecond.
* Theorems: `C20_round_trip`, `C20_normalise_idempotent`, `C20_spellings`, `C20_name_parses`, `C20_meaning`, `C20_strings`, `C20_capitals_refuted`, `C20_repeated_unit_refuted`, `C20_special_offset_refuted`, `C20_name_of_millisecond_refuted`.

### C21: Timedelta arithmetic is consistent and observation windows never act as time

* Modelled: `Timedelta` arithmetic.
* Proof: integer arithmetic over an abstract calendar.
* Status: proved. For every duration, time and calendar.
* Theorems: `C21_negation_involutive`, `C21_subtract_is_add_negation`, `C21_absolute_inverse`, `C21_observations_refused`, `C21_observations_recognised`.

### C22: Saving and loading features preserves the definitions

* Modelled: serializer, deserializer, constructors.
* Proof: induction on features and on the save order.
* Status: partial. Round trip proved for every list of features built by the constructors, under the hypotheses of the record `saveable` (unique names identify definitions, primitives rebuilt from their arguments, no feature grouped by its own input). Both exceptions are real and are refuted with witnesses: a groupby feature whose input is its own grouping feature loses that input, and two definitions with one unique name collapse to the first. For any description whatsoever, loading gives only features the constructors accept, with relationships that end in indexes (C22_loaded_valid). JSON encoding itself is not modelled.
* Theorems: `C22_round_trip_partial`, `C22_same_feature`, `C22_loaded_valid`, `C22_groupby_refuted`, `C22_same_name_refuted`.

### C23: Primitive deserialisation is history-independent

* Modelled: `PrimitivesDeserializer`.
* Proof: invariant over request histories.
* Status: partial. Lookup is correct for any sequence of requests when (name, module) identifies a class; with two classes of the same name and module the answer depends on the history of earlier lookups (refuted).
* Theorems: `C23_lookup`, `C23_history_partial`, `C23_duplicate_refuted`.

### C24: Dependencies and depth are structural

* Modelled: `get_dependencies`, `get_depth`.
* Proof: structural induction against `reaches` and longest chains.
* Status: proved. get_dependencies(deep) is exactly the set of features reachable through inputs, where and groupby; get_depth is the longest chain.
* Theorems: `C24_dependencies`, `C24_acyclic`, `C24_depth`, `C24_below_shallower`.

### C25: DFS respects max_depth

* Modelled: `DeepFeatureSynthesis`.
* Proof: invariant over the recursive construction.
* Status: partial. Every returned feature has depth at most max_depth + 1, and at most max_depth outside three exactly described cases (conditions at small depths, direct features of direct features or of outputs, direct features through a self relationship); each exceptional case is refuted with a witness. C25_depth_partial is for runs without seed features; C25_seeds_partial is for any seed features, with depths counted down to them.
* Theorems: `C25_depth_partial`, `C25_seeds_partial`, `C25_condition_refuted`, `C25_parent_refuted`, `C25_outputs_refuted`.

### C26: DFS returns distinct features of the target entity, shallow first

* Modelled: the same.
* Proof: invariant; permutation and sorting lemmas.
* Status: proved. For every run that returns: distinct names, target entity, requested return types, ordered by depth, no index variable.
* Theorems: `C26_result`.

### C27: DFS never uses ignored entities or variables

* Modelled: the same.
* Proof: invariant.
* Status: partial. No definition contains a feature of an ignored entity or an ignored variable unless a primitive option includes it. Relationship paths may still cross an ignored entity (refuted: aggregations of grandchildren through an ignored child). What is part of a seed feature is excepted, as a seed may itself use an ignored variable.
* Theorems: `C27_ignored_partial`, `C27_path_refuted`.

### C28: DFS result filters are exact

* Modelled: `_filter_features`, max_features.
* Proof: list equality.
* Status: proved. drop_exact, drop_contains and max_features act as a filter and a prefix of the unfiltered result.
* Theorems: `C28_filters`.

### C29: DFS terminates

* Modelled: `_run_dfs` with fuel.
* Proof: fuel suffices on acyclic schemas; runs out for every fuel on a cycle.
* Status: partial. Termination proved for every entity set without a cycle of relationships, for every max_depth, primitive list and option. With a cycle below the target the search never returns (proved in general), witnessed by a self-referencing entity: the property is false there.
* Theorems: `C29_terminates_partial`, `C29_cycle_no_result`, `C29_refuted`.

### C30: Input matching is sound and complete

* Modelled: `match`.
* Proof: soundness and completeness by induction on the signature.
* Status: partial. Exact for ordered primitives and for commutative primitives whose inputs share one type (all of the library's). For a commutative primitive with different input types the sorted order can break the signature (refuted). Pools: features of one entity with distinct names, which is what DFS builds.
* Theorems: `C30_match_exact`, `C30_commutative`, `C30_commutative_typed`, `C30_commutative_refuted`.

### C31: Primitive options filter exactly the stated entities and variables

* Modelled: `options_utils`.
* Proof: equivalence with a decision table; lifted to whole runs.
* Status: partial. Which inputs, tuples and entities pass is characterised exactly, and C31_dfs lifts this to every feature inside every definition dfs returns that is not itself part of a seed feature. The documented priority of include over ignore options holds when no entity is in both lists and is refuted when one is; conditions (where clauses) ignore the options (refuted).
* Theorems: `C31_input`, `C31_groupby`, `C31_tuples`, `C31_entity`, `C31_globals_honoured`, `C31_options_kept`, `C31_documented_partial`, `C31_priority_refuted`, `C31_dfs`, `C31_condition_refuted`.

### C32: One-hot encoding is exact

* Modelled: `encode_features`.
* Proof: column-level characterisation.
* Status: partial. For every matrix, feature list and option, when the names the encoding may use are new and different: labels, counts, indicator values and exactly one true indicator per row. Refuted without it (two features share an indicator column); drop_first with a dictionary top_n always raises.
* Theorems: `C32_one_hot_partial`, `C32_drop_first_dict_refuted`, `C32_same_name_refuted`.

### C33: Encoded features reproduce the encoded columns

* Modelled: the same.
* Proof: evaluation of the encoded definitions.
* Status: partial. Same naming condition; refuted without it.
* Theorems: `C33_columns_partial`, `C33_features_compute_columns_partial`, `C33_other_columns_unchanged_partial`, `C33_other_column_overwritten_refuted`, `C33_repeated_feature_refuted`.

### C34: remove_highly_null_features removes exactly the columns over the threshold

* Modelled: `selection.py`.
* Proof: column-level characterisation.
* Status: partial. Kept exactly when the share of nulls is strictly below the threshold, for every matrix; refuted for the documented boundary (a column at the threshold is removed).
* Theorems: `C34_partial`, `C34_threshold_checked`, `C34_at_threshold_refuted`.

### C35: remove_single_value_features keeps exactly the informative columns

* Modelled: the same.
* Proof: the same.
* Status: proved. For every matrix and feature list.
* Theorems: `C35_single_value_exact`, `C35_low_information_exact`.

### C36: remove_highly_correlated_features leaves no correlated pair and keeps a representative

* Modelled: the same.
* Proof: the same.
* Status: partial. Exact description of the kept columns for every correlation function; refuted: a dropped column need not be correlated with a kept one.
* Theorems: `C36_partial`, `C36_representative_refuted`.

### C37: Selection keeps the feature list and the matrix in agreement

* Modelled: the same.
* Proof: the same.
* Status: partial. The returned features are exactly those whose columns remain, for every selection function; refuted for remove_low_information_features with multi-output features.
* Theorems: `C37_features_match_matrix`, `C37_low_information_refuted`.

### C38: normalize_entity is a lossless split

* Modelled: `normalize_entity`.
* Proof: table algebra.
* Status: partial. Proved for every entity whose numeric and datetime variables are stored as such, when the new id differs from the base id and, if a secondary time index is made, inferred types need no conversion: the secondary time index and its variables come from the last row of each value. C38_types_partial: types of the moved, copied, index and remaining variables, and the time indexes of both entities. Refuted without: the base id given as new id destroys the data, and moving a variable that links to a parent leaves a dangling relationship.
* Theorems: `C38_split_partial`, `C38_lossless_partial`, `C38_types_partial`, `C38_same_name_refuted`, `C38_dangling_refuted`.

### C39: API calls do not modify the caller's arguments

* Modelled: calls that change their arguments.
* Proof: exact condition and refutations.
* Status: partial. Exactly when the arguments come back unchanged is proved; variable_types is never changed (C39_types, with dictionaries as objects in a store); the unconditional property is refuted for copy_variables, the dataframe, secondary_time_index and GroupByTransformFeature base_features.
* Theorems: `C39_copy_variables_exact`, `C39_copy_unchanged_partial`, `C39_frame_partial`, `C39_types`, `C39_secondary_partial`, `C39_copy_variables_refuted`, `C39_frame_refuted`, `C39_secondary_refuted`, `C39_groupby_refuted`.

### C40: concat is the union of the entity sets

* Modelled: `concat`.
* Proof: table algebra.
* Status: partial. When concat returns, every entity of the result has the columns of the variables, a unique index, is in time order, contains every row of the first set and every row of the second whose index value is new, and nothing else; it does return for two equal sets with equal relationship lists whose index and time columns are sound and whose indexes were not created by the library. Refuted without: a library created index makes the call fail half way through with some rows already added; last time indexes appear although neither input had them.
* Theorems: `C40_union_partial`, `C40_succeeds_partial`, `C40_created_index_refuted`, `C40_last_times_refuted`.

### C41: EntitySet equality is an equivalence relation

* Modelled: `EntitySet.__eq__`.
* Proof: characterisation.
* Status: partial. Equality of entity sets is exactly sameness of schema plus inclusion of the left relationships in the right ones; it is reflexive and transitive. Symmetry fails (witness: the right side has one more relationship) and is proved for equal numbers of distinct relationships.
* Theorems: `C41_equal_exact`, `C41_reflexive`, `C41_symmetric_partial`, `C41_transitive`, `C41_symmetric_refuted`.

### C42: Deep equality compares the data

* Modelled: `_dataframes_equal`, deep `__eq__`.
* Proof: refutation and true part.
* Status: partial. Deep equality does not compare the present values of the data frames: refuted with a witness; the part that is compared is proved.
* Theorems: `C42_data_never_compared`, `C42_deep_equality_refuted`, `C42_deep_equality_partial`.

### C43: metadata always describes the current entity set

* Modelled: metadata cache.
* Proof: invariant over operation histories.
* Status: partial. Proved for every history of entity set calls (creation, normalisation, relationships, updates, concat in place, last time indexes, interesting values, metadata), failing calls included except rejected add_relationship / update_data / concat. Refuted for the methods of Entity and for a rejected add_relationship.
* Theorems: `C43_fresh_partial`, `C43_entity_methods_refuted`, `C43_rejected_relationship_refuted`.

### C44: Relationship set invariants

* Modelled: `add_relationship`.
* Proof: invariant over histories with rejected calls.
* Status: partial. All histories of accepted and rejected calls over entities with rows; acceptance characterised exactly. Refuted: a rejected call keeps the changed variable types; with an empty child an accepted call can change the dtype under an earlier relationship.
* Theorems: `C44_history_partial`, `C44_rejected_partial`, `C44_accepted_iff_partial`, `C44_again`, `C44_rejected_refuted`, `C44_empty_child_refuted`.

### C45: Entity tables keep a unique index, consistent time types and sorted rows

* Modelled: `set_index`, `set_time_index`, `update_data`, creation, normalisation.
* Proof: invariant over histories.
* Status: partial. Over every history of the public mutators whose calls succeed and respect the stated side conditions. The full property is refuted: a failed update_data, a rejected creation, a normalize_entity that moves the index, already_sorted inherited by normalize_entity, and an empty frame each break it.
* Theorems: `C45_index_and_kind_partial`, `C45_order_partial`, `C45_failed_update_refuted`, `C45_rejected_creation_refuted`, `C45_moved_index_refuted`, `C45_normalized_order_refuted`, `C45_empty_frame_refuted`.

### C46: Partitioned aggregation equals whole-column aggregation

* Modelled: partitioned forms of the aggregations.
* Proof: independence of the partition, over rationals.
* Status: partial. For every split of a column into partitions and every group: the partitioned form equals the single-table form, over rationals (floating-point rounding is not modelled). Refuted for Mean(skipna=False), which ignores the option on Dask.
* Theorems: `C46_count`, `C46_sum`, `C46_mean`, `C46_num_unique`, `C46_num_true`, `C46_percent_true`, `C46_any`, `C46_all`, `C46_min`, `C46_max`, `C46_std`, `C46_mean_skipna_refuted`.

### C47: n_jobs maps to a legal number of workers

* Modelled: `n_jobs_to_workers`.
* Proof: arithmetic.
* Status: proved. Exact result for every n_jobs and CPU count.
* Theorems: `C47_workers`.

### C48: Schema version check orders versions numerically

* Modelled: `check_schema_version`.
* Proof: string order against number order.
* Status: partial. Exact for versions with the same number of one-digit components; refuted for two-digit components and for another number of components.
* Theorems: `C48_own_version_silent`, `C48_digits_partial`, `C48_two_digits_refuted`.

### C49: make_temporal_cutoffs yields the requested evenly spaced cutoffs

* Modelled: `make_temporal_cutoffs`.
* Proof: arithmetic progressions.
* Status: partial. Exact for all three argument combinations; refuted: one window from a start divides by zero, and with a size and a start the last time need not be the cutoff.
* Theorems: `C49_size_and_number`, `C49_start_and_number`, `C49_size_and_start`, `C49_one_window_refuted`, `C49_last_is_cutoff_refuted`.

### C50: A feature's name identifies its definition

* Modelled: `generate_name` of features and primitives.
* Proof: unambiguous parsing of names by induction.
* Status: partial. Proved for all features made of word-named variables, values of parents, aggregations with conditions and windows, counts of the index, transforms and grouped transforms written NAME(...). The full statement is false: four refutations exhibit different definitions with one name and different values (unbracketed a - b - c, scalar 1 and '1', counts of different variables, variable names with dots).
* Theorems: `C50_names_partial`, `C50_unique_names_partial`, `C50_distinct_partial`, `C50_brackets_refuted`, `C50_scalar_refuted`, `C50_count_refuted`, `C50_dot_refuted`.

### C51: Cumulative primitives are per-group prefix aggregations

* Modelled: cumulative primitives, `_calculate_groupby_features`.
* Proof: prefix-aggregation equality.
* Status: proved. Each primitive in grouped and ungrouped form on every frame; the matrix theorems carry it through the whole calculator under the hypotheses of C06. Numbers are integers (CumMean: rationals).
* Theorems: `C51_cum_sum`, `C51_cum_count`, `C51_cum_min`, `C51_cum_max`, `C51_diff`, `C51_cum_mean`, `C51_matrix_grouped_partial`, `C51_matrix_plain_partial`.

### C52: use_previous takes exactly the last n observations or the closed time window

* Modelled: window part of `_calculate_agg_features`.
* Proof: characterisation.
* Status: partial. Through the whole calculator: an aggregation with use_previous sees exactly the last n matching rows (n > 0), or exactly those stamped at or after cutoff minus the delta. n = 0 keeps every row (refuted).
* Theorems: `C52_observations_partial`, `C52_window_partial`, `C52_zero_observations_refuted`.

### C53: Cutoff-time validation rejects ambiguous requests

* Modelled: `_validate_cutoff_time`.
* Proof: decision table.
* Status: partial. Exact acceptance condition and result, when the index is not called time and the time index not instance_id; refuted for an index called time, for which no frame is accepted.
* Theorems: `C53_accepted_iff_unambiguous`, `C53_accepted_frames_keep_rows`, `C53_time_kind`, `C53_index_named_time_refuted`.

### C54: Entity set descriptions round-trip

* Modelled: `serialize.py`, `deserialize.py` without data files.
* Proof: round trip.
* Status: partial. Proved for the schema part of descriptions, for every entity set whose index, time index and link variables still have the types the library gives them: rebuilding succeeds, keeps ids, relationships and their order, index, time index, secondary time index, dtypes and every variable with its type, interesting values and description, and the two sets compare equal both ways. The data files are the subject of C71. Refuted without: a secondary time index without a time index makes rebuilding fail; a link type chosen by hand is replaced.
* Theorems: `C54_round_trip_partial`, `C54_equal_partial`, `C54_last_times`, `C54_secondary_refuted`, `C54_link_type_refuted`.

### C55: Deep feature synthesis builds only what was asked for

* Modelled: `DeepFeatureSynthesis`.
* Proof: invariant: every stored feature was requested.
* Status: proved. Every sub-feature of every returned definition that is not part of a seed feature given by the user. The inputs of every aggregation, transform and group-by match the first declared signature of its primitive, one input for each type.
* Theorems: `C55_requested`, `C55_stacking`.

### C56: Time primitives measure the real gaps in the requested unit

* Modelled: `AvgTimeBetween`, `TimeSince*`, `convert_time_units`.
* Proof: telescoping sums over rationals.
* Status: partial. Times are integer nanoseconds, results rationals. Refuted: a year is neither twelve months nor 365 days.
* Theorems: `C56_avg_time_between`, `C56_too_few`, `C56_unknown_unit`, `C56_units`, `C56_long_units`, `C56_year_refuted`, `C56_time_since`.

### C57: Most-frequent primitives report the most frequent values

* Modelled: `Mode`, `NMostCommon`.
* Proof: counting, for every order of ties.
* Status: proved. For every order value_counts may give to equally frequent values.
* Theorems: `C57_n_most_common`, `C57_mode`, `C57_mode_missing`.

### C58: Trend is the least-squares slope over time

* Modelled: `Trend`.
* Proof: least squares over rationals.
* Status: partial. The trend is the least-squares slope in the unit chosen by the first time. Refuted: shifting every time by one second changes it by a factor of 86400.
* Theorems: `C58_least_squares`, `C58_unit`, `C58_too_few`, `C58_shift_refuted`.

### C59: The feature matrix answers the request, row by row

* Modelled: driver and calculator together.
* Proof: composition of C06, C09, C10.
* Status: partial. The whole path from cutoff frame to feature matrix, under the hypotheses of C06 (valid_request) and no default that replaces a missing row silently; the counterexamples of C06, C07, C09 and C10 show what fails without them.
* Theorems: `C59_matrix_partial`, `C59_rows_independent_partial`.

### C60: Standard aggregations compute the documented statistics

* Modelled: standard aggregations.
* Proof: statistics over rationals.
* Status: partial. Every clause but one is proved, over rational columns (floating-point rounding is not modelled). The clause on Std is false: np.std handed to groupby.agg is the sample deviation, a direct call the population deviation (C60_std_refuted).
* Theorems: `C60_count`, `C60_sum`, `C60_mean`, `C60_mean_skipna`, `C60_min`, `C60_max`, `C60_num_unique`, `C60_num_true`, `C60_percent_true`, `C60_any`, `C60_all`, `C60_median`, `C60_median_halves`, `C60_std`, `C60_std_call`, `C60_std_refuted`, `C60_first`, `C60_last`, `C60_order`, `C60_first_last_depend_on_order`, `C60_percentile`.

### C61: An expression on features means that expression on their values

* Modelled: operator methods of features and their primitives.
* Proof: evaluation of expressions against evaluation of features.
* Status: partial. The value of the expression feature (S_Sem) is the value of the expression whenever the latter is defined and operand types are the declared ones; the matrix version has the hypotheses of C06. C61_negation_refuted shows that negating a comparison is not the opposite comparison for missing values; a feature cannot be combined with a constant by and/or. Division is in C89.
* Theorems: `C61_expression`, `C61_one_entity`, `C61_matrix_partial`, `C61_negation_refuted`, `C61_constant_logic`, `C61_names`.

### C62: The order in which workers finish never changes the feature matrix

* Modelled: `parallel_calculate_chunks`.
* Proof: permutation invariance.
* Status: proved. Unconditional for the modelled calculator; for an arbitrary calculator with a cutoff frame too.
* Theorems: `C10_arrival_order`, `C10_arrival_order_single`, `C10_arrival_calculated`.

### C63: A valid request is answered

* Modelled: calculator and driver.
* Proof: progress: no error branch is reached.
* Status: partial. Without approximation: under the hypotheses of C06 (valid_request) and runnable (S_Total.v) the calculation succeeds and, with the default condition of C06, the result is exactly the matrix of meanings; C63_matrix_partial and C63_single_partial state it for the whole call, any chunk size, workers and arrival order. C63_answered_refuted: a transform of one output of an aggregation with several outputs raises KeyError.
* Theorems: `C63_answered_partial`, `C63_correct_partial`, `C63_matrix_partial`, `C63_single_partial`, `C63_answered_refuted`.

### C64: Creating an entity keeps the data frame

* Modelled: `entity_from_dataframe`, `Entity.__init__`.
* Proof: table algebra.
* Status: partial. C64_created: index, columns, types, time index, other entities, for every successful call. C64_rows_partial: rows one for one and the values of every column whose type needs no conversion, if conversions keep the number of values. Refuted: without an index argument the first column is taken as index even when it is the time index.
* Theorems: `C64_created`, `C64_rows_partial`, `C64_distinct_refuted`.

### C65: Relationships and paths are named so that they can be told apart

* Modelled: `Relationship`, `RelationshipPath` names.
* Proof: injectivity.
* Status: partial. Names of relationships and entities of paths proved for every entity set. That a name identifies the path needs plain words as names and no two entities that are each other's parent; both exceptions are refuted with witnesses.
* Theorems: `C65_relationship_names`, `C65_path_names_partial`, `C65_path_entities`, `C65_brackets_refuted`, `C65_mutual_refuted`.

### C66: A feature has the type its inputs and primitive give it

* Modelled: `variable_type`, `_check_input_types`, constructors.
* Proof: case analysis and induction.
* Status: partial. Types, hierarchy and the exact condition for building a transform proved. Refuted: the number of inputs is not checked, and a feature copied from a parent's index has type Index in the child.
* Theorems: `C66_kinds`, `C66_types`, `C66_no_second_index`, `C66_transform_built`, `C66_arity_refuted`, `C66_direct_index_refuted`.

### C67: The lineage graph shows exactly what a feature is built from

* Modelled: `feature_visualizer.py`.
* Proof: induction over the traversal with a seen set.
* Status: partial. Nothing foreign is drawn, and only the target is highlighted, for every feature. That the whole lineage is drawn and joined needs entity and name to tell its features apart; a feature renamed like a used column loses its inputs (refuted). Step numbers: the last is the feature's own; at least 1 when nothing is grouped by a feature. Refuted: an input and a feature using it can have the same step number, and with a computed groupby the numbers go below 1.
* Theorems: `C67_only_lineage`, `C67_only_lineage_edges`, `C67_all_lineage_partial`, `C67_last_step`, `C67_steps_partial`, `C67_step_order_refuted`, `C67_steps_groupby_refuted`, `C67_renamed_refuted`.

### C68: Deep feature synthesis builds everything that was asked for

* Modelled: `DeepFeatureSynthesis`.
* Proof: the store only grows; each stage adds every match; lifted through the recursion.
* Status: partial. Proved for every schema, primitive set, option and depth: columns of the target, transforms, grouped transforms and parents' variables, and aggregations of the variables of a child (of any entity below when depth is unlimited). Features are identified by entity and name, and names must differ. Missing: aggregations of computed features, and of entities more than one step down under a depth limit. Refuted: a grouped transform is never built when only the grouping feature comes from a parent; a larger max_depth can lose features, because an entity is visited once with the depth left at its first visit.
* Theorems: `C68_columns`, `C68_transforms`, `C68_groupbys_partial`, `C68_parents`, `C68_children_partial`, `C68_no_options`, `C68_plain_name`, `C68_groupby_direct_refuted`, `C68_depth_refuted`.

### C69: The warning about unused primitives is right

* Modelled: `_categorize_features`, `get_unused_primitives`, looking primitives up by name.
* Proof: what the walk records is exactly what the visited features apply; the walk visits everything needed when names tell features apart.
* Status: partial. Proved for every list of features in which features of the same name are made alike. Refuted in two ways: a primitive given by a string with capitals, such as 'Sum', is accepted and used but reported as unused; and since features are remembered by name alone, a variable of another entity called like a feature hides the feature's primitive.
* Theorems: `C69_only_used`, `C69_all_used`, `C69_returns`, `C69_warning`, `C69_not_listed_used`, `C69_capitals_refuted`, `C69_name_refuted`.

### C70: The description of a feature says what it is computed from

* Modelled: `describe_feature` and all its helpers, `get_description`, `convert_to_nth`.
* Proof: one-step equation of the recursion, containment of each phrase; ordinals related to the decimal digits.
* Status: partial. Proved for templates that show all their inputs (Count's does not) and, for existence, templates that take the inputs there are, nonempty given descriptions and conditions comparing with a value. Refuted: any condition is described as equality ('x > 5' as 'x is 5'), yes/no columns as conditions raise, an empty given description raises, given descriptions of intermediate parents' features and of features an output is taken of are skipped, outputs of grouped and parents' features lose the group or the parent, features through different links to one parent read the same, and a key that is the name followed by the entity is taken for the feature.
* Theorems: `C70_inputs`, `C70_custom`, `C70_local`, `C70_total`, `C70_aggregation`, `C70_output`, `C70_parent`, `C70_file`, `C70_ordinals`, `C70_condition_refuted`, `C70_no_description_refuted`, `C70_given_refuted`, `C70_output_refuted`, `C70_same_refuted`, `C70_key_refuted`.

### C71: A saved entity set is read back with its data

* Modelled: the files written in order (data files, then the description), csv/parquet/pickle contents, `astype`, `read_entityset`, and the directory after a stop within the sequence of writes.
* Proof: frame = its columns; column by column round trip of the text form; the loading of an entity with data generalises C54's; the directory is a map and writes are independent.
* Status: partial. Proved for every directory: the round trip for entity sets whose columns are their variables with data of the declared types (any values for pickle; no missing values in object columns for parquet; for csv, numbers, dates, booleans and texts that are not all numbers or missing-value words, with the separator ','), rows unsorted in time coming back sorted; the result of reading never depends on what was in the directory; a save stopped anywhere in a directory without a description cannot be read. Refuted: csv with another separator cannot be read, texts of digits come back as numbers and 'NA' as missing, parquet turns missing texts into 'nan', and a save stopped while replacing an earlier one is read as a mixture. Pandas' own reading and writing is written out for whole numbers, booleans, texts and missing values only; LatLong, archives, S3, Dask and Koalas are left out.
* Theorems: `C71_round_trip_partial`, `C71_sorted_partial`, `C71_last_times`, `C71_fresh`, `C71_stopped`, `C71_separator_refuted`, `C71_digits_refuted`, `C71_words_refuted`, `C71_missing_refuted`, `C71_replaced_refuted`.

### C72: Interesting values are the most frequent ones

* Modelled: `value_counts` up to the order of ties, the choice among the sorted counts, the loop over variables and entities.
* Proof: counts of different values add up to the length; what is picked is an initial part of the sorted counts, ended by a value that is not moderately frequent; two values together occur at most as often as there are values.
* Status: proved. For every column, max_values and order of ties (any permutation). Not modelled: the classes ZIPCode, CountryCode and SubRegionCode, which are treated like Categorical by the code, and the cast of the values to the dtype of the column.
* Theorems: `C72_chosen`, `C72_interesting`, `C72_again`.

### C73: What deep feature synthesis returns can be calculated, and means what its features say

* Modelled: the search of `M_DFS.v` and the calculation of `M_CFM.v`/`M_Calc.v` together; the caller's hypotheses are one record, `ordinary_search`.
* Proof: features the search makes have ordinary names and are complete inputs of well-behaved primitives, by induction over how features are made; so names of different features differ (C13, C52), the features are valid and answerable, and C63's theorem about the matrix applies.
* Status: partial. Proved from the caller's side only: the hypotheses speak about the schema, the names, the primitives and the data, not about the features found. They are: names are words, no seed features, no cycle of relationships, primitives that return as many values as asked (and booleans for the conditions), at most one primitive that counts the way pandas does, no transform over a whole entity when an entity has a grandparent, and for aggregations of several columns that no visible row lacks an owner and that their value over no rows is missing. Missing: approximation, seed features; where the last hypotheses fail the claim is refuted elsewhere (C06, C63).
* Theorems: `C73_ordinary_partial`, `C73_dfs_matrix_partial`, `C73_dfs_single_partial`.

### C74: Deep feature synthesis is reproducible

* Modelled: two runs of the search of `M_DFS.v` that differ in the function giving the order in which a set of features is iterated.
* Proof: a simulation: the two runs keep pools that are permutations of each other (equal without interesting values), because sorting matched inputs by name undoes the order of sets when names differ; the cases where they do not are refuted by two runs.
* Status: partial. Proved for searches without seed features in which no two features the listed primitives can make of the columns share a name (proved of ordinary searches, C73), also when case is ignored if a primitive is commutative: the same features with no max_features, the same list with no interesting values. Refuted without: C74_conditions_refuted shows two different results for two orders of the set of conditions under max_features, C74_case_refuted two names for the sum of columns a and A.
* Theorems: `C74_same_features_partial`, `C74_same_list_partial`, `C74_ordinary_partial`, `C74_conditions_refuted`, `C74_case_refuted`.

### C75: How primitives are given to dfs does not matter

* Modelled: `M_Setup.v`: the constructor of DeepFeatureSynthesis, looking up names, instantiating classes, get_arguments and the order of primitives; spec `S_Setup.v`: what an element of a list stands for, how a primitive is written.
* Proof: the sort is stable insertion by text; two sorted permutations without ties are equal; acceptance by inversion of each step; two primitives written alike as counterexample.
* Status: partial. Which requests are accepted is characterised in full for pandas-like entity sets (compatibility is a flag per primitive). The order and spelling of the lists is shown not to matter when no two different primitives of a list share name and shown arguments and no two seeds share a unique name; otherwise it does (C75_order_refuted: two primitives made from one function). Not modelled: type errors for ignore_entities and ignore_variables, arguments that are not primitive classes.
* Theorems: `C75_accepted`, `C75_answered`, `C75_order_partial`, `C75_order_refuted`, `C75_where_refuted`.

### C76: Primitives made from functions compute what the function says

* Modelled: `M_Make.v`: make_trans_primitive, make_agg_primitive, inspect_function_args, instances, functools.partial, the binding of positional and keyword arguments, what is saved; spec `S_Make.v`: which value each parameter should get.
* Proof: the keyword arguments of the call are followed as finite maps (defaults, settings, time); binding by induction over the parameters; counterexamples by computation.
* Status: partial. What is computed is proved for functions whose data parameters come first and have no defaults; with a default on an input every calculation raises (C76_input_default). Saving is proved to keep only primitives without settings and refuted otherwise. Not modelled: *args, **kwargs, keyword-only parameters, cls_attributes.
* Theorems: `C76_computes`, `C76_named`, `C76_refused`, `C76_default_value`, `C76_saved_partial`, `C76_settings_lost`, `C76_input_default`, `C76_saved_refuted`, `C76_default_value_refuted`, `C76_arguments_refuted`, `C76_time_refuted`.

### C77: Inferred variable types are determined by the column

* Modelled: `M_Infer.v`: infer_variable_types with its loop variable carried from column to column, col_is_datetime, sampling as a parameter; spec `S_Infer.v`: rules saying which type a column deserves.
* Proof: case analysis against the rules; a sample of all rows is a permutation; the number of distinct values and the mean length do not change under permutation; counterexamples by computation.
* Status: partial. Proved for columns with up to 10000 rows that are not empty columns of dtype string or of an unusual dtype, and (order of rows) whose values are all or none datetime objects; the exceptions are refuted. Whether a value reads as a number or a date is decided value by value (pandas).
* Theorems: `C77_deserved_partial`, `C77_deserved_once`, `C77_columns_partial`, `C77_rows_partial`, `C77_leftover_refuted`, `C77_rows_refuted`, `C77_sample_refuted`, `C77_string_refuted`.

### C78: The way frames and relationships are listed does not matter when an entity set is built

* Modelled: `M_Construct.v`: EntitySet(id, entities, relationships) and the entity set dfs() makes, with the frames as objects of the caller in a store; spec `S_Construct.v`: the same set up to the order of dictionaries.
* Proof: an entity depends on the time type of the set only through whether its own fits; merging time types is commutative; recording variable types commutes; invariants for adding relationships; counterexamples by computation.
* Status: partial. Proved for frames that are different objects, in any order, and for relationships in any order when no frame is empty. Refuted otherwise: a frame given for two entities shows the second one the index made for the first, and a column of an empty frame that refers to two entities is accepted in one order of the relationships only.
* Theorems: `C78_parts_partial`, `C78_frames_partial`, `C78_relationships_partial`, `C78_dfs_partial`, `C78_shared_refuted`, `C78_relationships_refuted`.

### C79: Haversine is the distance along the surface of the earth

* Modelled: `M_Geo.v`: Latitude, Longitude and Haversine on columns with labels and missing places, over the real numbers; spec `S_Geo.v`: points of the unit sphere as vectors, and the angle between them.
* Proof: trigonometry: the haversine is half of one minus the scalar product; the Gram determinant for the triangle inequality; induction over columns.
* Status: partial. Distances are proved over the real numbers (rounding is not modelled), with the axioms of the standard library's real numbers. The columns are proved when the labels of rows without a place are row numbers; a missing place with any other label makes Latitude, Longitude and Haversine fail.
* Theorems: `C79_distance`, `C79_symmetric`, `C79_range`, `C79_triangle`, `C79_turn`, `C79_units`, `C79_columns_partial`, `C79_columns_refuted`.

### C80: Entropy is the entropy of the distribution of values

* Modelled: `M_Entropy.v`: normalised value counts and scipy.stats.entropy over the real numbers; spec `S_Entropy.v`: the average surprise of the rows.
* Proof: exchange of sums over rows and over values; Gibbs' inequality from exp x >= 1 + x for the bounds.
* Status: partial. Proved over the real numbers (rounding is not modelled), with the axioms of the standard library's real numbers. The documented meaning of dropna (True: missing values are a category) is refuted: it is the other way round.
* Theorems: `C80_value`, `C80_range`, `C80_rows`, `C80_names`, `C80_dropna_refuted`.

### C81: Year, Month, Day, Weekday, Week, IsWeekend, Hour, Minute and Second are the parts of the date

* Modelled: `M_Calendar.v`: the date of a day number by cycles of 400, 100, 4 and 1 years, Sakamoto's day of the week, the ISO week, the clock; spec `S_Calendar.v`: the Gregorian calendar, told by what the next day is.
* Proof: a date is the number of days before it (arithmetic with division); the calendar is unique, forwards and backwards.
* Status: partial. The algorithms that the primitives call are those of pandas, written down from its C code, without its bounds on years and without time zones. Week is the ISO week; the documented week is proved in years that begin with a Monday to Thursday, up to the week that ends the year, and refuted otherwise (January 1, 2021 is in week 53).
* Theorems: `C81_calendar`, `C81_date`, `C81_week`, `C81_week_partial`, `C81_week_refuted`, `C81_clock`, `C81_missing`.

### C82: Age counts years

* Modelled: `M_Calendar.v`: whole days divided by 365; spec `S_Calendar.v`: birthdays.
* Proof: the number of days between equal dates of two years lies between 365 and 366 times the number of years.
* Status: partial. Proved from the birthday on, with the bound on that day; refuted before it: Age divides days by 365, so it reaches k up to one day per leap day before the k-th birthday.
* Theorems: `C82_birthday_partial`, `C82_early_refuted`, `C82_missing`.

### C83: NumWords and NumCharacters count words and characters

* Modelled: `M_Text.v`: counting spaces and characters; spec `S_Text.v`: words begin at a character that is no space, after a space or at the beginning.
* Proof: induction on the text.
* Status: partial. Exactly the texts with single spaces between their words get their number of words; refuted for others: empty and missing texts have one word, spaces at the ends and double spaces count, line breaks do not. Characters are bytes in the model.
* Theorems: `C83_words_partial`, `C83_words_refuted`, `C83_characters`.

### C84: Encoding in place leaves the caller's matrix equal to the result

* Modelled: `M_EncodeInplace.v`: the loop with the matrix kept when a feature fails.
* Proof: invariant over the features: each column is new, passed through or of a feature to come.
* Status: partial. Proved: results agree, a copy protects the caller, and in place the caller's matrix has the result's columns name by name; a second call with the old features is then refused. Refuted: the order of the columns differs, and a call that fails leaves the matrix half encoded.
* Theorems: `C84_copy`, `C84_inplace_partial`, `C84_again`, `C84_inplace_refuted`, `C84_failed_refuted`.

### C85: The time primitives agree with each other

* Modelled: `M_Previous.v`: differences between rows and their conversion.
* Proof: induction on the column; the gaps telescope.
* Status: partial. The sum and mean are proved for columns without missing times, with exact rationals. Refuted with missing times: the gap across a missing row is lost by TimeSincePrevious and counted by AvgTimeBetween.
* Theorems: `C85_rows`, `C85_steps`, `C85_total`, `C85_average`, `C85_unknown_unit`, `C85_missing_refuted`.

### C86: Progress reports grow steadily to 100 percent

* Modelled: `M_Report.v`: the calls of the callback in each handler, for any state of the frames, and the bar.
* Proof: induction on the plan: the numerators add up to the number of features; then over the ticks of the bar.
* Status: proved. For exact rationals; with floating point the last percentage may differ in the last digit. Chunks hold at most the requested cutoffs (C09). C86_share: with nothing precalculated the calculation accounts for exactly 95 percent.
* Theorems: `C86_sequential`, `C86_share`, `C86_parallel`.

### C87: Leaving out one order of the inputs of a commutative primitive loses nothing

* Modelled: `M_Commute.v`: the attribute of each class, over `M_Expr.v` and `M_Match.v`.
* Proof: cases on the primitives; with C30 for the kept pairs.
* Status: partial. Refuted for SubtractNumeric, which is marked by default although swapping gives the opposite values. Division is in C89; for Haversine see C79. Numbers are integers.
* Theorems: `C87_commutative_partial`, `C87_subtract_refuted`, `C87_not_commutative`, `C87_kept_partial`.

### C88: Mistakes in primitive options are reported

* Modelled: `M_Options.v`: the checks of the values, the warnings, the dicts read.
* Proof: induction over the items and groups; refinement to `M_Match.v`, so that C31 applies to what is read.
* Status: partial. Refuted for the last sentence: a misspelt primitive name with one dict of options is accepted silently; it is only reported when a list of dicts is given. Also refuted: a misspelt option for a primitive class is reported with a TypeError of the message instead of the KeyError.
* Theorems: `C88_accepted`, `C88_kept`, `C88_used`, `C88_warned`, `C88_error_partial`, `C88_error_refuted`, `C88_all_accepted`, `C88_read`, `C88_unknown_partial`, `C88_unknown_refuted`.

### C89: Dividing features gives the exact quotient, and shows where there is none

* Modelled: `M_Divide.v`: the operators and their primitives on extended fractions.
* Proof: induction on the expression against the inductive relation `exactly` of `S_Divide.v`.
* Status: partial. Values, missing values and divisions by zero are proved on exact fractions (no rounding, one zero). Refuted: 1 / (a / b) is 0 where b is 0, an ordinary number; (a + b) / c and a + b / c get the same name.
* Theorems: `C89_exact`, `C89_by_zero`, `C89_missing`, `C89_built`, `C89_hidden_refuted`, `C89_name_refuted`.

### C90: Seed features on the target are returned

* Modelled: `M_DFS.v`: `handle_new_feature`, `add_identity_features`, `run_dfs`.
* Proof: names once stored stay, by induction on the recursion of `run_dfs`; a seed's name is stored when its entity is visited; witnesses for the refuted parts.
* Status: partial. Proved: a feature of the target with the name of the seed is returned, for seeds that are not the target's index or named like it. Refuted: that feature need not be the seed, as a feature built later under the same name silently replaces it; and a seed named like a column replaces the column.
* Theorems: `C90_returned_partial`, `C90_replaced_refuted`, `C90_column_refuted`.

### C91: list_primitives lists every primitive once, and describes it

* Modelled: `M_Listing.v`: `get_primitives`, `list_primitives`, with the iteration orders as parameters.
* Proof: the dictionary built from any order has the same keys; induction on nested signatures against the relation `mentions`; witnesses for the refuted parts.
* Status: partial. The same classes are described in every process when names differ by more than case. Refuted: of two primitives whose names differ only in case, the order of a set decides which is listed and used under the name; and the text of valid_inputs depends on the order of a set.
* Theorems: `C91_described`, `C91_complete`, `C91_once`, `C91_settled_partial`, `C91_choice_refuted`, `C91_inputs_refuted`.

### C92: A file that defines one primitive can be found and loaded

* Modelled: `M_Listing.v`: `load_primitive`, `check_valid_primitive_path`, `list_primitive_files`.
* Proof: case analysis on the names bound; a file name test on strings against `primitive_file` of `S_Listing.v`; witnesses for the refuted parts.
* Status: partial. Loading is characterised exactly: one name bound to a primitive other than the two base classes. Refuted: a file that imports the primitive its own class extends is refused. Listing is exact when no file is named like a directory of the current directory; otherwise the file is not listed (refuted), because directories are looked up from the current directory. Running the file itself is not modelled.
* Theorems: `C92_load`, `C92_import_refuted`, `C92_files_partial`, `C92_directory_refuted`.

### C93: EntitySet.plot draws the entity set and writes only the file asked for

* Modelled: `M_Plot.v`: `plot`, `get_format`, `save_graph`, with files as a dictionary.
* Proof: text decomposition of labels and file names; witnesses for the refuted parts.
* Status: partial. Edges end at the drawn entities when no entity name has a colon (refuted otherwise: the part after it is taken for a port). Two relationships may be drawn alike (refuted). The picture is in the named file, but a file with that name less its extension is overwritten and deleted (refuted), and a Path is not accepted although its format is read (refuted). Rendering, and characters special in record labels, are not modelled.
* Theorems: `C93_entities`, `C93_relationships`, `C93_connected_partial`, `C93_colon_refuted`, `C93_label_refuted`, `C93_saved`, `C93_refused`, `C93_deletes_refuted`, `C93_path_refuted`.

### C94: A variable type is known by its type string

* Modelled: `M_VTypes.v`: both substitutions as scanners, the class tree, both lookups.
* Proof: strong induction on the text; the dictionary built by folding is a search from the end.
* Status: partial. The spelling rule holds for every ASCII name. Names made of capitalised words have different type strings; other names need not (refuted: ZIPCode and ZipCode), and then a saved variable of the library's type comes back as the user's (refuted). A saved Text variable comes back as Unknown, although Text may be named for an entity (refuted). The rest is proved for types whose type string is not shared.
* Theorems: `C94_spelling`, `C94_small`, `C94_rule`, `C94_words`, `C94_apart_partial`, `C94_apart_refuted`, `C94_read_back_partial`, `C94_read_sound`, `C94_named`, `C94_listed`, `C94_text_refuted`, `C94_taken_refuted`.

### C95: Entry points registered for dfs hear of each call without changing it

* Modelled: `M_Observe.v`: `wrapped` gives the events in order and what the caller gets.
* Proof: induction over the entry points; witnesses for the refuted parts.
* Status: partial. Proved for entry points whose reports do not fail; a failing report hides the value or the error or keeps the function from running (refuted). An interrupted call is never reported as ended (refuted). Later entry points see what earlier ones put in the dictionary (refuted); the first sees exactly the arguments given. Running times and changes inside argument objects are not modelled.
* Theorems: `C95_transparent_partial`, `C95_runs`, `C95_told_partial`, `C95_arguments`, `C95_failing_refuted`, `C95_interrupted_refuted`, `C95_shared_refuted`.

### C96: Log levels follow the environment variables

* Modelled: `M_Logging.v`: `initialize_logging`, the walk over the handlers, and the rules of logging for levels and handlers.
* Proof: fold over distinct logger names; case folding by cases on characters.
* Status: partial. Messages are written once when the loggers had at most one handler before; with two, one stays and the message is written twice (refuted: the list is changed while it is walked). The backend variable sets a logger no module uses (computation_backend, not computational_backend), so it has no effect (refuted, and proved for every environment). Wrong levels are reported by AttributeError.
* Theorems: `C96_levels`, `C96_valid`, `C96_messages_partial`, `C96_handlers_refuted`, `C96_backend`, `C96_backend_refuted`.

### C97: Cleaning a dataframe for Koalas keeps its data

* Modelled: `M_Koalas.v`: the three steps on columns of cells.
* Proof: cell by cell, by cases on the first row.
* Status: partial. Proved for columns of tuples or lists of numbers without missing rows, and columns of single values. A dataframe without rows is an error (refuted), a missing coordinate becomes the same as -1 (refuted), a column is treated by its first row only (refuted), and a category of integers with a missing value is an error (refuted). Numbers are integers in the model.
* Theorems: `C97_cleaned_partial`, `C97_kept`, `C97_empty_refuted`, `C97_flag_refuted`, `C97_first_refuted`, `C97_category_refuted`.


## Wrong programs

`seeded/LOG.jsonl` records edits made to scratch copies of the model, each the way a realistic bug would change the
program, the claim each one breaks and the theorems or lemmas that stopped proving. Where a theorem still proved although its claim was
false, it was tightened; the log names it.

## Trusted base

* Coq's kernel (8.16.1), including its virtual machine (`vm_compute` in concrete runs).
* `Print Assumptions` answers "Closed under the global context" for every theorem named in `MANIFEST.json`
  except those of C79 and C80: they use no axiom, not even one of the standard library.
* The theorems of C79 (distances on the earth, `P_Geo.v`) and C80 (entropy, `P_Entropy.v`) are about real numbers and use the axioms of the standard library's real
  numbers: `ClassicalDedekindReals.sig_not_dec`, `ClassicalDedekindReals.sig_forall_dec`,
  `FunctionalExtensionality.functional_extensionality_dep` and `Classical_Prop.classic`.
* A checker that looks at whole loaded libraries lists seven constants of `Coq.ssr.ssrunder.Under_rel` (`Over_rel`, `Under_rel_from_rel`,
  `over_rel`, `over_rel_done`, `Under_rel`, `Under_relE`, `under_rel_done`). They are the opaque module behind ssreflect's `under`
  tactic, loaded with the standard library's `Lia`; no theorem here depends on them.
* Such a checker also lists the constants of `Coq.Reals.Rdefinitions.RbaseSymbolsImpl` (`R`, `R0`, `R1`, `Rplus`, `Rmult`, `Ropp`, `Rlt`,
  `Rabst`, `Rrepr`, and the equations `R0_def`, `R1_def`, `Rplus_def`, `Rmult_def`, `Ropp_def`, `Rlt_def`, `Rquot1`, `Rquot2`) and of
  `RinvImpl` (`Rinv`, `Rinv_def`): the sealed modules in which the standard library defines the real numbers from Dedekind cuts.
* Only the standard library is used (lists, strings, integers, rationals, real numbers, permutations, sorting). No functors, module
  types, plugins or axioms are defined, and no kernel check is switched off.
* The reading of `/repo` embodied in the model files: the code was read, never run.
* The list-level semantics given to pandas operations, dictionaries and sets, described above.
* The parameters of the model (primitive functions, iteration order of sets, calendar, type inference, correlation, orders of
  arrival) range over all functions of their type, except for the hypotheses a theorem states about them.
