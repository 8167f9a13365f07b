{"id": "C01", "title": "No data after the cutoff reaches a feature value", "statement": "calculate_feature_matrix at cutoff time T (no training window, no approximation) returns exactly the same matrix for two entity sets of the same schema whose rows agree up to and including T (strictly before T when include_cutoff_time=False); rows stamped after T, and secondary-time columns not yet known at T, cannot influence any returned value.", "quantifier": "all schemas, all pairs of entity sets agreeing on the data visible at T, all feature lists, all instance ids, all cutoffs T", "why_tests_cant": "leakage depends on the combination of feature definition, traversal path and data after T; a test can only try particular future rows", "anchors": ["featuretools/computational_backends/feature_set_calculator.py:FeatureSetCalculator.run", "featuretools/entityset/entityset.py:EntitySet.query_by_values", "featuretools/entityset/entityset.py:EntitySet._handle_time"]}
{"id": "C02", "title": "Cutoff and training-window boundaries are exact", "statement": "For an entity with a time index the rows used at cutoff T with training window w are exactly those with time in (T-w, T] when include_cutoff_time=True and in [T-w, T) when it is False (before considering last time indexes); without a window the lower bound is absent; entities without a time index are used in full.", "quantifier": "all tables, all cutoffs, all windows, both settings of include_cutoff_time", "why_tests_cant": "off-by-one boundaries must be excluded for every timestamp, including ties with T and T-w", "anchors": ["featuretools/entityset/entityset.py:EntitySet._handle_time"]}
{"id": "C03", "title": "A training window does not let future events select rows", "statement": "With training_window w, whether a row of an entity is used at cutoff T depends only on data stamped at or before T, even when last time indexes have been added.", "quantifier": "all entity sets with last time indexes, all cutoffs and windows", "why_tests_cant": "requires ranging over every possible future child event", "anchors": ["featuretools/entityset/entityset.py:EntitySet._handle_time", "featuretools/entityset/entityset.py:EntitySet.add_last_time_indexes"]}
{"id": "C04", "title": "Secondary time index hides exactly the not-yet-known columns", "statement": "At cutoff T, the columns listed under a secondary time index are replaced by nulls exactly in the rows whose secondary time is not yet visible at T, and every other cell of every visible row is unchanged. Visibility uses the same boundary rule as the primary time index.", "quantifier": "all tables, all secondary time index declarations, all cutoffs, both include_cutoff_time settings", "why_tests_cant": "cell-level claim over all tables and columns", "anchors": ["featuretools/entityset/entityset.py:EntitySet._handle_time", "featuretools/entityset/entity.py:Entity.set_secondary_time_index"]}
{"id": "C05", "title": "query_by_values is an exact, order-preserving filter", "statement": "query_by_values(entity, values, variable, columns, time) returns the rows whose variable is one of the non-null given values and that are visible at the time, in stored order, each once however often its value was repeated in the request, restricted to the requested columns; values=None means no value filter.", "quantifier": "all tables, all (duplicated, unordered, null-containing) value lists, all variables", "why_tests_cant": "must hold for every duplicate/order pattern of the request and every table", "anchors": ["featuretools/entityset/entityset.py:EntitySet.query_by_values", "featuretools/entityset/entityset.py:EntitySet._vals_to_series"]}
{"id": "C06", "title": "Computed values equal the meaning of the feature definition", "statement": "For every requested instance the value in the matrix equals the recursive meaning of the feature: the stored cell for an identity feature, the parent's value for a direct feature, the primitive applied to the descendants reached along the relationship path that satisfy the where clause and window for an aggregation, the primitive applied to the row's inputs for a transform.", "quantifier": "all schemas, entity sets, feature definitions (any stacking depth), instance sets and cutoffs", "why_tests_cant": "the calculator shares one trie of filtered frames between all features; only an induction over the feature structure shows sharing never changes a value", "anchors": ["featuretools/computational_backends/feature_set_calculator.py:FeatureSetCalculator", "featuretools/computational_backends/feature_set.py:FeatureSet"]}
{"id": "C07", "title": "A value does not depend on which other instances or features are requested", "statement": "The value of a feature for an instance is the same whether it is calculated alone or together with any other instances or features.", "quantifier": "all instance sets, all feature sets, all cutoffs", "why_tests_cant": "ranges over all subsets of instances and features", "anchors": ["featuretools/computational_backends/feature_set_calculator.py:FeatureSetCalculator.run", "featuretools/primitives/standard/transform_primitive.py:TimeSincePrevious"]}
{"id": "C08", "title": "Every requested instance gets a row; unknown ones get defaults", "statement": "The matrix computed for a set of instance ids has exactly one row per distinct requested id, in request order; ids with no visible data get every feature's default value and never cause an error or a missing row.", "quantifier": "all id lists (duplicates, unknown ids), all tables", "why_tests_cant": "must hold for all mixes of known and unknown ids", "anchors": ["featuretools/computational_backends/feature_set_calculator.py:FeatureSetCalculator.run", "featuretools/computational_backends/feature_set_calculator.py:FeatureSetCalculator.generate_default_df"]}
{"id": "C09", "title": "Chunking neither loses, duplicates nor reorders work", "statement": "Splitting the cutoff times into chunks for any chunk size yields chunks of at most that size whose concatenation is the input grouped by cutoff time; the resulting matrix is the same for every chunk size.", "quantifier": "all cutoff frames, all chunk sizes (absolute or fractional)", "why_tests_cant": "all sizes and remainders", "anchors": ["featuretools/computational_backends/calculate_feature_matrix.py:_chunk_dataframe_groups", "featuretools/computational_backends/calculate_feature_matrix.py:_handle_chunk_size", "featuretools/computational_backends/calculate_feature_matrix.py:calculate_feature_matrix"]}
{"id": "C10", "title": "The matrix is independent of worker scheduling", "statement": "With n_jobs workers the returned matrix (rows, order and values) is the same for every order in which worker results arrive, and equals the sequential result; its rows are in the order of the input cutoff times.", "quantifier": "all completion orders (schedules) of the chunk computations, all cutoff frames", "why_tests_cant": "schedules cannot be enumerated by tests", "anchors": ["featuretools/computational_backends/calculate_feature_matrix.py:parallel_calculate_chunks", "featuretools/computational_backends/calculate_feature_matrix.py:calculate_feature_matrix"]}
{"id": "C11", "title": "Approximation rounds cutoffs down to the window grid", "statement": "With approximate=w every cutoff t is replaced, for approximated features, by the greatest multiple of w not after t: never later than t and less than w earlier; rounding twice changes nothing; cutoffs in the same bin share one value.", "quantifier": "all cutoffs and all windows (time units and plain integers)", "why_tests_cant": "all timestamps and windows", "anchors": ["featuretools/computational_backends/utils.py:bin_cutoff_times", "featuretools/computational_backends/utils.py:datetime_round"]}
{"id": "C12", "title": "Approximation changes only the approximated aggregations", "statement": "With approximate set, features that are not approximated (identity, transform, direct features of non-aggregations) get the values they have at the exact cutoff time, as without approximate.", "quantifier": "all feature lists mixing approximated and other features, all cutoffs, all entity sets", "why_tests_cant": "all mixtures of features and data after the cutoff", "anchors": ["featuretools/computational_backends/calculate_feature_matrix.py:calculate_chunk", "featuretools/computational_backends/calculate_feature_matrix.py:approximate_features"]}
{"id": "C13", "title": "save_progress survives a crash at any point and loses no cutoff", "statement": "At every crash point the progress directory contains, under a final name, only complete files; after a complete run there is one file per computed cutoff group whose content is that group's result.", "quantifier": "all sequences of cutoff groups, all crash points", "why_tests_cant": "all crash points and all pairs of cutoff times (file-name collisions)", "anchors": ["featuretools/computational_backends/utils.py:save_csv_decorator", "featuretools/computational_backends/calculate_feature_matrix.py:calculate_chunk"]}
{"id": "C14", "title": "Features are evaluated in dependency order, in homogeneous groups", "statement": "The feature groups computed for an entity partition the requested features; every feature comes after all features of the same entity it depends on; all members of a group have the same path, kind, where clause, use_previous window and groupby, so that processing a group at once is sound.", "quantifier": "all feature sets, all iteration orders of the underlying hash sets", "why_tests_cant": "all DAG shapes and all hash orders", "anchors": ["featuretools/computational_backends/feature_set.py:FeatureSet.group_features", "featuretools/computational_backends/feature_set.py:FeatureSet._get_feature_depths"]}
{"id": "C15", "title": "The calculation plan is closed under dependencies and full-entity needs", "statement": "For each planned feature all of its dependencies are planned at the entity reached by its relationship path (unless approximated); if a feature uses the full entity, so does everything below it; no feature is planned both as full and as not full; nothing else is planned.", "quantifier": "all lists of target features", "why_tests_cant": "all feature DAGs and insertion orders", "anchors": ["featuretools/computational_backends/feature_set.py:FeatureSet._add_feature_to_trie"]}
{"id": "C16", "title": "Trie behaves as a map from paths to values", "statement": "After any sequence of writes, reading a path returns the last value written to it or the default; get_node on a concatenated path is get_node twice; iteration yields each created path exactly once, prefixes first, with its value.", "quantifier": "all sequences of operations and all paths", "why_tests_cant": "all histories", "anchors": ["featuretools/utils/trie.py:Trie"]}
{"id": "C17", "title": "find_forward_paths returns exactly the simple forward paths", "statement": "find_forward_paths(a,b) yields exactly the chains of relationships from a up to b that visit no entity twice (plus the empty path if a=b), each once; find_backward_paths is its mirror image; it terminates on every relationship graph including cyclic ones; has_unique_forward_path is true iff exactly one exists.", "quantifier": "all relationship graphs including cyclic ones and parallel relationships", "why_tests_cant": "all graphs", "anchors": ["featuretools/entityset/entityset.py:EntitySet.find_forward_paths", "featuretools/entityset/entityset.py:EntitySet.find_backward_paths", "featuretools/entityset/entityset.py:EntitySet.has_unique_forward_path"]}
{"id": "C18", "title": "Deep traversal yields every path to a related entity and terminates", "statement": "get_forward_entities / get_backward_entities(deep=True) yield every entity reachable upward / downward with a valid path to it and terminate.", "quantifier": "all relationship graphs", "why_tests_cant": "termination on every graph cannot be tested", "anchors": ["featuretools/entityset/entityset.py:EntitySet.get_backward_entities", "featuretools/entityset/entityset.py:EntitySet.get_forward_entities"]}
{"id": "C19", "title": "Last time index is the latest event in the instance's subtree", "statement": "After add_last_time_indexes each instance's last time is the maximum of its own time and the times of all its descendants through all relationships, and null iff there is none; repeating the call changes nothing.", "quantifier": "all acyclic relationship graphs, all tables, all processing orders, all subsets of updated entities", "why_tests_cant": "all graph shapes and data", "anchors": ["featuretools/entityset/entityset.py:EntitySet.add_last_time_indexes"]}
{"id": "C20", "title": "Timedelta save/load and normalisation round-trip", "statement": "Timedelta.from_dictionary(td.get_arguments()) equals td, unit spellings (singular/plural/short) are normalised to one unit, and normalising twice changes nothing.", "quantifier": "all units, values and multi-unit combinations", "why_tests_cant": "all combinations", "anchors": ["featuretools/entityset/timedelta.py:Timedelta"]}
{"id": "C21", "title": "Timedelta arithmetic is consistent and observation windows never act as time", "statement": "negating twice is the identity; t - td equals t + (-td) for absolute windows; observation-based windows are never added to a time (an error is raised).", "quantifier": "all times and windows", "why_tests_cant": "all values", "anchors": ["featuretools/entityset/timedelta.py:Timedelta.__neg__", "featuretools/entityset/timedelta.py:Timedelta.__rsub__"]}
{"id": "C22", "title": "Saving and loading features preserves the definitions", "statement": "load_features(save_features(fs)) returns features with the same definitions (primitive, inputs, path, where, window, groupby, name) in the same order, with shared dependencies shared, for every list of features whose distinct members have distinct names.", "quantifier": "all feature lists of any stacking depth", "why_tests_cant": "all nested definitions", "anchors": ["featuretools/feature_base/features_serializer.py:FeaturesSerializer", "featuretools/feature_base/features_deserializer.py:FeaturesDeserializer", "featuretools/feature_base/feature_base.py:GroupByTransformFeature.get_arguments"]}
{"id": "C23", "title": "Primitive deserialisation is history-independent", "statement": "Deserialising a primitive returns the class with the requested name and module whatever was deserialised before, or reports that it does not exist; the lazily built cache never returns another class.", "quantifier": "all sequences of deserialisation requests, all class discovery orders", "why_tests_cant": "all histories of the resumable cache", "anchors": ["featuretools/primitives/utils.py:PrimitivesDeserializer"]}
{"id": "C24", "title": "Dependencies and depth are structural", "statement": "get_dependencies(deep=True) lists exactly the features strictly below a feature; get_depth is 0 for identity features and otherwise one more than the deepest dependency; ignored features cut the traversal.", "quantifier": "all feature definitions", "why_tests_cant": "all nested definitions", "anchors": ["featuretools/feature_base/feature_base.py:FeatureBase.get_dependencies", "featuretools/feature_base/feature_base.py:FeatureBase.get_depth"]}
{"id": "C25", "title": "DFS respects max_depth", "statement": "Every feature returned by dfs(max_depth=d) has depth at most d.", "quantifier": "all schemas, primitive sets, options and depths d", "why_tests_cant": "all schemas and primitive sets", "anchors": ["featuretools/synthesis/deep_feature_synthesis.py:DeepFeatureSynthesis._run_dfs", "featuretools/synthesis/deep_feature_synthesis.py:DeepFeatureSynthesis._build_forward_features", "featuretools/synthesis/deep_feature_synthesis.py:DeepFeatureSynthesis._build_agg_features"]}
{"id": "C26", "title": "DFS returns distinct features of the target entity, shallow first", "statement": "The feature list returned by dfs contains no two features with the same name, only features on the target entity, of the requested return types, in non-decreasing depth, and never the target's index itself.", "quantifier": "all schemas, primitive sets and options", "why_tests_cant": "all schemas and primitive sets", "anchors": ["featuretools/synthesis/deep_feature_synthesis.py:DeepFeatureSynthesis.build_features", "featuretools/synthesis/deep_feature_synthesis.py:DeepFeatureSynthesis._handle_new_feature"]}
{"id": "C27", "title": "DFS never uses ignored entities or variables", "statement": "No feature returned by dfs depends, at any depth and outside the seed features it was given, on a variable in ignore_variables or on an entity in ignore_entities.", "quantifier": "all schemas, primitive sets, options and ignore sets", "why_tests_cant": "transitive claim over all generated features", "anchors": ["featuretools/synthesis/deep_feature_synthesis.py:DeepFeatureSynthesis._add_identity_features", "featuretools/synthesis/deep_feature_synthesis.py:DeepFeatureSynthesis._run_dfs"]}
{"id": "C28", "title": "DFS result filters are exact", "statement": "drop_exact and drop_contains remove exactly the features whose name equals / contains one of the strings, and max_features=n>0 keeps exactly the first n of the remaining list.", "quantifier": "all feature lists and filter lists", "why_tests_cant": "all inputs", "anchors": ["featuretools/synthesis/deep_feature_synthesis.py:DeepFeatureSynthesis._filter_features", "featuretools/synthesis/deep_feature_synthesis.py:DeepFeatureSynthesis.build_features"]}
{"id": "C29", "title": "DFS terminates", "statement": "dfs terminates for every relationship graph and every max_depth, including unlimited depth.", "quantifier": "all relationship graphs, all depths", "why_tests_cant": "non-termination cannot be tested", "anchors": ["featuretools/synthesis/deep_feature_synthesis.py:DeepFeatureSynthesis._run_dfs", "featuretools/entityset/entityset.py:EntitySet.get_backward_entities"]}
{"id": "C30", "title": "Input matching is sound and complete", "statement": "The input tuples chosen for a primitive are exactly the tuples of distinct features whose types match the primitive's signature; for commutative primitives exactly one ordering of each set is used.", "quantifier": "all feature pools and signatures of any arity", "why_tests_cant": "all arities and pools", "anchors": ["featuretools/synthesis/deep_feature_synthesis.py:match", "featuretools/synthesis/deep_feature_synthesis.py:match_by_type"]}
{"id": "C31", "title": "Primitive options filter exactly the stated entities and variables", "statement": "A set of input features is used for a primitive iff each input passes that primitive's include/ignore entity and variable options, with include taking precedence as documented.", "quantifier": "all option dictionaries and feature tuples", "why_tests_cant": "all option combinations", "anchors": ["featuretools/primitives/options_utils.py:variable_filter", "featuretools/primitives/options_utils.py:filter_matches_by_options", "featuretools/primitives/options_utils.py:ignore_entity_for_primitive"]}
{"id": "C32", "title": "One-hot encoding is exact", "statement": "encode_features replaces a categorical column by indicator columns such that, with include_unknown, exactly one indicator is true in every row: the one for the row's value if it is among the top n, otherwise the unknown column; indicators are the most frequent values.", "quantifier": "all columns, all top_n, all value multisets", "why_tests_cant": "all columns", "anchors": ["featuretools/synthesis/encode_features.py:encode_features"]}
{"id": "C33", "title": "Encoded features reproduce the encoded columns", "statement": "The columns added by encode_features are exactly the names of the returned encoded features, and computing those features on the same data gives the same columns; untouched columns are unchanged.", "quantifier": "all feature matrices and option combinations", "why_tests_cant": "all matrices", "anchors": ["featuretools/synthesis/encode_features.py:encode_features"]}
{"id": "C34", "title": "remove_highly_null_features removes exactly the columns over the threshold", "statement": "remove_highly_null_features(m, t) removes a column iff its fraction of nulls exceeds t, leaving all other columns and all rows unchanged.", "quantifier": "all matrices, all thresholds in [0,1]", "why_tests_cant": "all fractions including ties", "anchors": ["featuretools/selection/selection.py:remove_highly_null_features"]}
{"id": "C35", "title": "remove_single_value_features keeps exactly the informative columns", "statement": "remove_single_value_features removes a column iff it has fewer than two distinct values, nulls counting as a value only if count_nan_as_value is set.", "quantifier": "all matrices", "why_tests_cant": "all matrices", "anchors": ["featuretools/selection/selection.py:remove_single_value_features"]}
{"id": "C36", "title": "remove_highly_correlated_features leaves no correlated pair and keeps a representative", "statement": "After removal no two remaining checked columns are correlated at or above the threshold; columns to keep and unchecked columns are never removed; each removed column is represented by a kept column correlated with it.", "quantifier": "all matrices, all correlation structures, all thresholds", "why_tests_cant": "all correlation graphs", "anchors": ["featuretools/selection/selection.py:remove_highly_correlated_features"]}
{"id": "C37", "title": "Selection keeps the feature list and the matrix in agreement", "statement": "When features are passed to a selection function, a feature is kept iff all of its columns are kept in the returned matrix.", "quantifier": "all feature lists including multi-output features", "why_tests_cant": "all mixtures of single and multi-output features", "anchors": ["featuretools/selection/selection.py:_apply_feature_selection", "featuretools/selection/selection.py:remove_low_information_features"]}
{"id": "C38", "title": "normalize_entity is a lossless split", "statement": "After normalize_entity the new entity has exactly one row per distinct value of the chosen index, carrying the additional/copied variables of the first such row; the old entity loses exactly the additional variables and keeps all rows; the new relationship has no dangling references; if the moved variables are functionally determined by the index, joining the two entities gives back the original table.", "quantifier": "all tables, all variable selections", "why_tests_cant": "all tables", "anchors": ["featuretools/entityset/entityset.py:EntitySet.normalize_entity"]}
{"id": "C39", "title": "API calls do not modify the caller's arguments", "statement": "normalize_entity and GroupByTransformFeature do not change the lists passed by the caller, so repeating a call with the same list object has the same effect.", "quantifier": "all argument lists, all call sequences", "why_tests_cant": "depends on call history", "anchors": ["featuretools/entityset/entityset.py:EntitySet.normalize_entity", "featuretools/feature_base/feature_base.py:GroupByTransformFeature.__init__", "featuretools/entityset/entity.py:Entity.set_secondary_time_index"]}
{"id": "C40", "title": "concat is the union of the entity sets", "statement": "a.concat(b) contains for every entity every row of a and every row of b whose index is not in a, each index once, sorted by time then index; it changes neither argument unless inplace; it succeeds for any two entity sets of the same schema.", "quantifier": "all pairs of entity sets of equal schema", "why_tests_cant": "all pairs of tables", "anchors": ["featuretools/entityset/entityset.py:EntitySet.concat"]}
{"id": "C41", "title": "EntitySet equality is an equivalence relation", "statement": "== on entity sets is reflexive and symmetric, and true only if the entities and relationships are the same.", "quantifier": "all pairs of entity sets", "why_tests_cant": "all pairs", "anchors": ["featuretools/entityset/entityset.py:EntitySet.__eq__", "featuretools/entityset/entity.py:Entity.__eq__"]}
{"id": "C42", "title": "Deep equality compares the data", "statement": "__eq__(other, deep=True) is true only if the data frames hold the same values.", "quantifier": "all pairs of entity sets", "why_tests_cant": "all pairs of tables", "anchors": ["featuretools/entityset/entity.py:Entity.__eq__", "featuretools/utils/wrangle.py:_dataframes_equal"]}
{"id": "C43", "title": "metadata always describes the current entity set", "statement": "After any sequence of public operations on an entity set and its entities, entityset.metadata describes the current entities, variables, types, indexes and relationships.", "quantifier": "all histories of operations", "why_tests_cant": "cache staleness depends on the history", "anchors": ["featuretools/entityset/entityset.py:EntitySet.metadata", "featuretools/entityset/entityset.py:EntitySet.reset_data_description", "featuretools/entityset/entity.py:Entity.convert_variable_type"]}
{"id": "C44", "title": "Relationship set invariants", "statement": "After any sequence of add_relationship calls the relationships are pairwise distinct, each one points from a non-index child variable to the parent's index with equal data types; a rejected call leaves the entity set as it was.", "quantifier": "all call sequences, including failing calls", "why_tests_cant": "all histories including failing calls", "anchors": ["featuretools/entityset/entityset.py:EntitySet.add_relationship", "featuretools/entityset/relationship.py:Relationship"]}
{"id": "C45", "title": "Entity tables keep a unique index, consistent time types and sorted rows", "statement": "In every reachable entity set the index values of each entity are distinct, rows are sorted by time then index unless the caller declared them sorted, and all time indexes of the entity set have one kind (numeric or datetime).", "quantifier": "all histories of entity creation and update", "why_tests_cant": "all histories", "anchors": ["featuretools/entityset/entity.py:Entity.set_index", "featuretools/entityset/entity.py:Entity.set_time_index", "featuretools/entityset/entity.py:Entity.update_data"]}
{"id": "C46", "title": "Partitioned aggregation equals whole-column aggregation", "statement": "For the primitives with a partitioned (Dask) implementation, aggregating partitions and combining gives the same value as the in-memory primitive on the whole column, for every partitioning.", "quantifier": "all columns and all partitionings of them", "why_tests_cant": "all partitionings", "anchors": ["featuretools/primitives/standard/aggregation_primitives.py:NumUnique", "featuretools/primitives/standard/aggregation_primitives.py:PercentTrue", "featuretools/primitives/standard/aggregation_primitives.py:Any", "featuretools/primitives/standard/aggregation_primitives.py:All"]}
{"id": "C47", "title": "n_jobs maps to a legal number of workers", "statement": "n_jobs_to_workers returns between 1 and the number of CPUs for every n_jobs other than 0, -1 meaning all CPUs, and rejects 0.", "quantifier": "all n_jobs and CPU counts", "why_tests_cant": "all integers", "anchors": ["featuretools/computational_backends/utils.py:n_jobs_to_workers"]}
{"id": "C48", "title": "Schema version check orders versions numerically", "statement": "check_schema_version raises/warns about an upgrade iff the stored schema version is numerically newer than the library's, and about an outdated one iff its major version is older; it accepts its own version silently.", "quantifier": "all version strings", "why_tests_cant": "all version strings, including multi-digit components and different lengths", "anchors": ["featuretools/utils/gen_utils.py:check_schema_version"]}
{"id": "C49", "title": "make_temporal_cutoffs yields the requested evenly spaced cutoffs", "statement": "For each instance make_temporal_cutoffs yields exactly num_windows cutoffs, the last one being the instance's cutoff, spaced by window_size (or evenly from start).", "quantifier": "all instance lists, cutoffs, window sizes and counts", "why_tests_cant": "all counts", "anchors": ["featuretools/utils/time_utils.py:make_temporal_cutoffs"]}
{"id": "C50", "title": "A feature's name identifies its definition", "statement": "Two features of one entity built from the standard primitives over different definitions have different names, so requesting both returns both values.", "quantifier": "all pairs of feature definitions", "why_tests_cant": "all pairs of nested definitions", "anchors": ["featuretools/feature_base/feature_base.py:FeatureBase.get_name", "featuretools/primitives/standard/binary_transform.py", "featuretools/computational_backends/feature_set.py:FeatureSet.__init__"]}
{"id": "C51", "title": "Cumulative primitives are per-group prefix aggregations", "statement": "The cumulative transforms give each row the aggregation of the rows up to and including it in its own group, rows with null group get the default, and other groups never matter.", "quantifier": "all columns and groupings", "why_tests_cant": "all columns and groupings", "anchors": ["featuretools/primitives/standard/cum_transform_feature.py", "featuretools/computational_backends/feature_set_calculator.py:FeatureSetCalculator._calculate_groupby_features"]}
{"id": "C52", "title": "use_previous takes exactly the last n observations or the closed time window", "statement": "An aggregation with use_previous of n observations uses the last n matching rows of each instance (all if fewer, none if n=0); with a time window w it uses exactly the rows with time >= cutoff - w.", "quantifier": "all tables, all n and w", "why_tests_cant": "all sizes including the boundary n=0", "anchors": ["featuretools/computational_backends/feature_set_calculator.py:FeatureSetCalculator._calculate_agg_features"]}
{"id": "C53", "title": "Cutoff-time validation rejects ambiguous requests", "statement": "A cutoff data frame is accepted iff it has instance-id and time columns and no repeated (instance, time) pair; columns are matched by name with the documented fallbacks and accepted frames keep all rows in order.", "quantifier": "all cutoff frames", "why_tests_cant": "all frames", "anchors": ["featuretools/computational_backends/utils.py:_validate_cutoff_time", "featuretools/computational_backends/utils.py:_check_cutoff_time_type"]}
{"id": "C54", "title": "Entity set descriptions round-trip", "statement": "description_to_entityset(entityset_to_description(es)) has the same entities, variables, types, indexes and relationships as es.", "quantifier": "all schemas", "why_tests_cant": "all schemas", "anchors": ["featuretools/entityset/serialize.py:entityset_to_description", "featuretools/entityset/deserialize.py:description_to_entityset"]}
{"id": "C55", "title": "Deep feature synthesis builds only what was asked for", "statement": "Every feature that occurs anywhere in a definition returned by dfs, outside the seed features it was given, is a variable of the entity set, a value of a parent along one of its relationships, an output of a multi-output feature, or one of the requested primitives of the right kind applied to inputs of its declared types; conditions appear only on requested where_primitives and only as 'variable equals one of its interesting values'. The variables at the ends of a relationship are neither copied nor aggregated along it, a value copied from the aggregating entity is not aggregated back, groupby transforms group by Ids unless an option names other variables to group by, and primitives are stacked only as their stacking attributes allow; transforms are never stacked on transforms.", "quantifier": "all schemas, primitive lists, options, interesting values, max_depth", "why_tests_cant": "all schemas and primitive lists", "anchors": ["featuretools/synthesis/deep_feature_synthesis.py:DeepFeatureSynthesis.build_features", "featuretools/synthesis/deep_feature_synthesis.py:DeepFeatureSynthesis._build_agg_features"]}
{"id": "C56", "title": "Time primitives measure the real gaps in the requested unit", "statement": "AvgTimeBetween is the mean gap between consecutive events whatever the order of the rows, and is missing for fewer than two known times; TimeSinceLast and TimeSinceFirst are measured from the latest and the earliest event; the same span expressed in two units agrees.", "quantifier": "all columns of times, in any order and with missing values, and all units", "why_tests_cant": "all multisets of times", "anchors": ["featuretools/primitives/standard/aggregation_primitives.py:AvgTimeBetween", "featuretools/utils/time_utils.py:convert_time_units"]}
{"id": "C57", "title": "Most-frequent primitives report the most frequent values", "statement": "NMostCommon(n) gives n entries: distinct values of the column, none less frequent than a value left out, padded with missing only when every value is listed. Mode gives a value of maximal frequency, the smallest such, and is missing only for an empty column.", "quantifier": "all columns, all n, every order of ties", "why_tests_cant": "all columns and tie orders", "anchors": ["featuretools/primitives/standard/aggregation_primitives.py:NMostCommon", "featuretools/primitives/standard/aggregation_primitives.py:Mode"]}
{"id": "C58", "title": "Trend is the least-squares slope over time", "statement": "Trend of values against times is the slope of the line with the smallest squared error, missing values ignored, missing for fewer than three points; it depends only on the values and the spacing of the times.", "quantifier": "all series of values and times", "why_tests_cant": "all series, all lines compared with", "anchors": ["featuretools/primitives/standard/aggregation_primitives.py:Trend"]}
{"id": "C59", "title": "The feature matrix answers the request, row by row", "statement": "calculate_feature_matrix returns exactly one row per requested (instance, cutoff time), in the order of the request. Each cell under a feature's name is the meaning of that feature for that instance at that time, which no other row of the request affects, and columns of the cutoff frame beyond the two keys are copied to the row.", "quantifier": "all entity sets, feature lists, cutoff frames, chunk sizes, numbers of workers and arrival orders", "why_tests_cant": "the composition of grouping, chunking, distribution, calculation and reassembly over every input and schedule", "anchors": ["featuretools/computational_backends/calculate_feature_matrix.py:calculate_feature_matrix", "featuretools/computational_backends/calculate_feature_matrix.py:calculate_chunk", "featuretools/computational_backends/feature_set_calculator.py:FeatureSetCalculator.run"]}
{"id": "C60", "title": "Standard aggregations compute the documented statistics", "statement": "Count, Sum, Mean, Min, Max, NumUnique, NumTrue, PercentTrue, Any, All, Median and Std give the textbook statistic of the values that are present, and do not depend on the order of the rows; First and Last give the first and last row's value; Std called directly agrees with Std as a feature; Percentile is the share of known values at or below a value.", "quantifier": "all columns of values, with missing values, in any order", "why_tests_cant": "all columns and all their permutations", "anchors": ["featuretools/primitives/standard/aggregation_primitives.py:Count", "featuretools/primitives/standard/aggregation_primitives.py:Median", "featuretools/primitives/standard/aggregation_primitives.py:Std", "featuretools/primitives/standard/transform_primitive.py:Percentile"]}
{"id": "C61", "title": "An expression on features means that expression on their values", "statement": "A feature built with the overloaded operators (arithmetic except division, modulo, comparison, equality, and/or/not, isin, is_null, with constants on either side) has, for every instance, the value of the same expression on the values of its leaves; all its parts are features of one entity.", "quantifier": "all expressions over all features, all entity sets and cutoff times", "why_tests_cant": "all expression trees and all values of the leaves", "anchors": ["featuretools/feature_base/feature_base.py:FeatureBase._handle_binary_comparision", "featuretools/feature_base/feature_base.py:FeatureBase.__mul__", "featuretools/primitives/standard/binary_transform.py"]}
{"id": "C62", "title": "The order in which workers finish never changes the feature matrix", "statement": "With a given number of workers and chunk size, calculate_feature_matrix returns the same feature matrix whatever the order in which the chunks arrive from the workers, also when primitives look at other rows of the same call.", "quantifier": "all entity sets, features, requests, chunk sizes, numbers of workers and pairs of arrival orders", "why_tests_cant": "every interleaving of workers", "anchors": ["featuretools/computational_backends/calculate_feature_matrix.py:parallel_calculate_chunks", "featuretools/computational_backends/calculate_feature_matrix.py:calculate_feature_matrix"]}
{"id": "C63", "title": "A valid request is answered", "statement": "calculate_feature_matrix does not raise when the features are well formed, their variables exist, conditions are true or false on every row and primitives return a value per row: every accepted request yields a feature matrix, whatever the data and the requested instances, known or unknown.", "quantifier": "all entity sets, features, instances and cutoff times", "why_tests_cant": "absence of exceptions over every combination of features, data and missing instances", "anchors": ["featuretools/computational_backends/feature_set_calculator.py:FeatureSetCalculator.run", "featuretools/computational_backends/feature_set_calculator.py:FeatureSetCalculator._calculate_features_for_entity", "featuretools/computational_backends/calculate_feature_matrix.py:calculate_feature_matrix"]}
{"id": "C64", "title": "Creating an entity keeps the data frame", "statement": "entity_from_dataframe makes an entity with every row of the data frame exactly once, every column (plus a made index numbering the rows), unchanged values in every column whose type needs no conversion, the given types, and the given time index; make_index is refused when the column exists; the index and the time index are different variables; other entities and the relationships stay.", "quantifier": "all data frames, arguments and entity sets", "why_tests_cant": "all frames and combinations of arguments", "anchors": ["featuretools/entityset/entityset.py:EntitySet.entity_from_dataframe", "featuretools/entityset/entity.py:Entity.__init__", "featuretools/entityset/entity.py:_create_index", "featuretools/utils/entity_utils.py:convert_all_variable_data"]}
{"id": "C65", "title": "Relationships and paths are named so that they can be told apart", "statement": "The name of a relationship is the other entity, with the linking column in brackets exactly when the two entities have another link; two paths that leave the same entity and have the same name are the same path; the entities of a path are the start and where each step leads.", "quantifier": "all entity sets, relationships and paths in any mix of directions", "why_tests_cant": "all schemas and all paths of any length", "anchors": ["featuretools/entityset/relationship.py:Relationship.parent_name", "featuretools/entityset/relationship.py:Relationship._is_unique", "featuretools/entityset/relationship.py:RelationshipPath.name", "featuretools/entityset/relationship.py:RelationshipPath.entities"]}
{"id": "C66", "title": "A feature has the type its inputs and primitive give it", "statement": "The type of a feature is that of its variable, of the parent's feature it copies, the one its primitive declares, or else the type of its first input with index, id and time index demoted; so the result of a primitive is never a second index. Subtypes follow the documented hierarchy, and a transform is built exactly when its inputs are single columns of one entity that fit one of the declared lists of input types.", "quantifier": "all features, primitives, variable types and entity sets", "why_tests_cant": "all nestings of features and all primitives", "anchors": ["featuretools/feature_base/feature_base.py:FeatureBase.variable_type", "featuretools/feature_base/feature_base.py:FeatureBase._check_input_types", "featuretools/variable_types/variable.py", "featuretools/feature_base/feature_base.py:TransformFeature.__init__"]}
{"id": "C67", "title": "The lineage graph shows exactly what a feature is built from", "statement": "graph_feature draws a row for the feature, for every feature it is built from and for every column linking the entities on the way, and for nothing else; arrows lead from every input to the feature that uses it, through the primitive that computes it; only the feature itself is highlighted; the step numbers start at 1, grow from inputs to the features that use them and end at the feature itself.", "quantifier": "all features, entity sets and primitives", "why_tests_cant": "all nestings and sharings of features", "anchors": ["featuretools/feature_base/feature_visualizer.py:graph_feature", "featuretools/feature_base/feature_visualizer.py:get_feature_data", "featuretools/feature_base/feature_visualizer.py:get_entity_table"]}
{"id": "C68", "title": "Deep feature synthesis builds everything that was asked for", "statement": "dfs returns every column of the target entity but its index, every variable of its parents, every transform and grouped transform of every fitting choice of inputs among the returned features, and every aggregation of every fitting choice of variables of the entities below, unless the depth limit, the ignored entities and variables, the options of the primitive, its stacking rules or the filters on the result exclude it. Allowing more depth never takes a feature away.", "quantifier": "all entity sets, primitives, options and depth limits", "why_tests_cant": "completeness over every schema, every set of primitives and every choice of inputs", "anchors": ["featuretools/synthesis/deep_feature_synthesis.py:DeepFeatureSynthesis.build_features", "featuretools/synthesis/deep_feature_synthesis.py:DeepFeatureSynthesis._run_dfs", "featuretools/synthesis/deep_feature_synthesis.py:DeepFeatureSynthesis._build_transform_features", "featuretools/synthesis/deep_feature_synthesis.py:DeepFeatureSynthesis._build_agg_features", "featuretools/synthesis/deep_feature_synthesis.py:DeepFeatureSynthesis._build_forward_features", "featuretools/synthesis/deep_feature_synthesis.py:match"]}
{"id": "C69", "title": "The warning about unused primitives is right", "statement": "After dfs, the warning names a primitive under one of trans_primitives, agg_primitives, groupby_trans_primitives and where_primitives exactly when it was given there and no returned feature, nor anything a returned feature is built from, applies it in that role; each name once, in alphabetical order; and no warning is shown when everything was used.", "quantifier": "all lists of features, primitives and arguments naming primitives", "why_tests_cant": "all nestings and sharings of features, and all names", "anchors": ["featuretools/synthesis/dfs.py:dfs", "featuretools/synthesis/dfs.py:get_unused_primitives", "featuretools/synthesis/dfs.py:warn_unused_primitives", "featuretools/synthesis/dfs.py:_categorize_features", "featuretools/synthesis/deep_feature_synthesis.py:check_trans_primitive"]}
{"id": "C70", "title": "The description of a feature says what it is computed from", "statement": "describe_feature gives every feature a sentence. A description given by the user for the feature, or for its unique name, is used as it is, what is given by hand taking precedence over a metadata file; otherwise the sentence contains the description of every input, of the column of the condition, of the grouping column, the entity and time window aggregated over and the entity it is computed for. Descriptions of features it is not built from do not matter. Outputs are counted 1st, 2nd, 3rd, 4th, ..., 11th, ...", "quantifier": "all features, given descriptions, templates, primitives and entity sets", "why_tests_cant": "all nestings of features and all user-given texts", "anchors": ["featuretools/feature_base/feature_descriptions.py:describe_feature", "featuretools/feature_base/feature_descriptions.py:generate_description", "featuretools/feature_base/feature_descriptions.py:get_direct_description", "featuretools/feature_base/feature_descriptions.py:get_aggregation_groupby", "featuretools/primitives/base/primitive_base.py:PrimitiveBase.get_description", "featuretools/utils/description_utils.py:convert_to_nth"]}
{"id": "C71", "title": "A saved entity set is read back with its data", "statement": "After an entity set was saved to a directory as pickle, parquet or csv files, reading the directory gives an entity set with the same id, relationships, entities, variables and time indexes, and with the same values in every column, row by row; this holds whatever the directory held before. A save that stops part of the way never leaves a directory that reads as a mixture of two entity sets: without an earlier save in the directory, reading it fails.", "quantifier": "all entity sets, formats, earlier contents of the directory and points at which the save stops", "why_tests_cant": "all data, crash points and histories of the directory", "anchors": ["featuretools/entityset/serialize.py:write_entity_data", "featuretools/entityset/serialize.py:dump_data_description", "featuretools/entityset/serialize.py:write_data_description", "featuretools/entityset/deserialize.py:description_to_entity", "featuretools/entityset/deserialize.py:description_to_entityset", "featuretools/entityset/deserialize.py:read_entity_data", "featuretools/entityset/deserialize.py:read_entityset"]}
{"id": "C72", "title": "Interesting values are the most frequent ones", "statement": "add_interesting_values gives every discrete variable that is in no relationship at most max_values different values of its column, none of them missing, the most frequent first and none left out that occurs more often than one that is taken: as many as there are if the column has fewer than 25 different values, otherwise those that make up more than 5% and less than 95% of the values. Discrete variables in relationships lose their values; other variables, the data and the rest of the entity set stay as they were; doing it again changes nothing.", "quantifier": "all entity sets, values of max_values and orders of equally frequent values", "why_tests_cant": "all columns, all distributions of their values, and every order in which ties are listed", "anchors": ["featuretools/entityset/entity.py:Entity.add_interesting_values", "featuretools/entityset/entityset.py:EntitySet.add_interesting_values"]}
{"id": "C73", "title": "What deep feature synthesis returns can be calculated, and means what its features say", "statement": "When the names in the data are ordinary words and the primitives behave as they declare, the features that dfs returns for a target entity can be calculated, in one call, at any cutoff times: the calculation does not raise, returns one row for each cutoff row, in order, and the column of each feature holds the value that the definition of the feature gives to that instance over the rows that existed at its time. This holds for however many primitives, depths, chunks and workers.", "quantifier": "all entity sets, schemas, primitives, depth limits, cutoff frames, chunk sizes and schedules of workers", "why_tests_cant": "all sets of features the search can return, together with all data they are calculated on", "anchors": ["featuretools/synthesis/dfs.py:dfs", "featuretools/synthesis/deep_feature_synthesis.py:DeepFeatureSynthesis.build_features", "featuretools/computational_backends/calculate_feature_matrix.py:calculate_feature_matrix", "featuretools/computational_backends/feature_set_calculator.py:FeatureSetCalculator.run"]}
{"id": "C74", "title": "Deep feature synthesis is reproducible", "statement": "Two runs of dfs with the same entity set and arguments return the same features, whatever order python happens to iterate sets in (the hash seed of the process). With no interesting values the same list is returned, also under max_features. With max_features and interesting values, which features are returned does depend on the hash seed; so does the name of a commutative feature of two columns whose names differ only in case.", "quantifier": "all entity sets, primitives, options and depth limits without seed features, all orders in which sets may be iterated", "why_tests_cant": "the order of a set depends on the hash seed of the process, a test sees one order per run and the features involved in the difference are few", "anchors": ["featuretools/synthesis/deep_feature_synthesis.py:DeepFeatureSynthesis.build_features", "featuretools/synthesis/deep_feature_synthesis.py:DeepFeatureSynthesis._build_agg_features", "featuretools/synthesis/deep_feature_synthesis.py:match"]}
{"id": "C75", "title": "How primitives are given to dfs does not matter", "statement": "The primitive lists of dfs may name a primitive (in any case), give its class, or give the primitive itself, in any order, and the seed features may come in any order: the search gets the same arguments and returns the same features. A request is refused exactly when the target is unknown or ignored, a name is unknown, a primitive is of the wrong kind or does not run on this kind of entity set. Primitives with the same name and shown arguments are not told apart: then the order of the list decides what a feature computes. The kind of where primitives is not checked.", "quantifier": "all lists of names, classes and primitives, all their orders, all classes with any arguments and defaults, all seed features", "why_tests_cant": "the number of orders and spellings of a list is exponential, and the ties that matter occur only for user-made primitives", "anchors": ["featuretools/synthesis/deep_feature_synthesis.py:DeepFeatureSynthesis.__init__", "featuretools/synthesis/deep_feature_synthesis.py:handle_primitive", "featuretools/synthesis/deep_feature_synthesis.py:check_trans_primitive", "featuretools/primitives/base/primitive_base.py:PrimitiveBase.__lt__", "featuretools/primitives/base/primitive_base.py:PrimitiveBase.get_arguments"]}
{"id": "C76", "title": "Primitives made from functions compute what the function says", "statement": "A primitive made with make_trans_primitive or make_agg_primitive passes the columns to the first parameters of the function, the time of calculation to a parameter called time, and to each other parameter what the user set or else its default. Only a parameter called time without uses_calc_time is refused. The default value of an aggregation is the one given, or what the function returns for empty columns. Settings do not survive saving: a loaded primitive has the default settings and can compute something else. The inferred default value ignores settings; positional settings of transform primitives are ignored; an input that has a default in the function makes every calculation fail.", "quantifier": "all functions with any parameters and defaults, all settings, all columns and times of calculation", "why_tests_cant": "the function, its signature and the settings are the user's: the ways arguments can be bound are unbounded", "anchors": ["featuretools/primitives/base/transform_primitive_base.py:make_trans_primitive", "featuretools/primitives/base/aggregation_primitive_base.py:make_agg_primitive", "featuretools/primitives/base/utils.py:inspect_function_args", "featuretools/primitives/base/primitive_base.py:PrimitiveBase.get_arguments", "featuretools/primitives/utils.py:serialize_primitive"]}
{"id": "C77", "title": "Inferred variable types are determined by the column", "statement": "When an entity is made from a dataframe, every column without a given type is typed by its own role, dtype and values: time indexes are datetimes or numbers, link columns are categorical, texts longer than 50 characters on average are natural language, columns whose texts read as dates are datetimes. Other columns, the order of the rows and chance do not matter. This fails in four ways: an empty column of an unusual dtype gets the type of the column before it; the first value alone decides when only some values are datetimes; with more than 10000 rows a random sample decides, so two runs on the same data can differ; words in a column of dtype string are typed as numbers.", "quantifier": "all dataframes, dtypes, values, roles of columns, orders of columns and rows, and samples drawn", "why_tests_cant": "the outcome depends on every value of a column and on a random sample; a test sees one sample and a few columns", "anchors": ["featuretools/utils/entity_utils.py:infer_variable_types", "featuretools/utils/entity_utils.py:col_is_datetime", "featuretools/entityset/entity.py:Entity._create_variables"]}
{"id": "C78", "title": "The way frames and relationships are listed does not matter when an entity set is built", "statement": "EntitySet(id, entities, relationships), and dfs() given entities and relationships, build the same entities, variable types, time type and relationships whatever the order of the dictionary of frames and of the list of relationships, or raise in every order; the set can be built if every frame can be made into a set on its own and their times are of one kind.", "quantifier": "all lists of frames with their indexes, time indexes, types and relationships, and all their permutations", "why_tests_cant": "tests list the frames in one order; the time type is set by the first frame that has a time, and variable types and frames change while the set is built", "anchors": ["featuretools/entityset/entityset.py:EntitySet.__init__", "featuretools/entityset/entityset.py:EntitySet.entity_from_dataframe", "featuretools/entityset/entityset.py:EntitySet.add_relationship", "featuretools/entityset/entity.py:Entity.__init__", "featuretools/synthesis/dfs.py:dfs"]}
{"id": "C79", "title": "Haversine is the distance along the surface of the earth", "statement": "For every two places the Haversine primitive gives the length of the shortest arc between them on a sphere of the radius of the earth, in miles or kilometers: it is never NaN for known places, does not depend on the order of the two places (the primitive is declared commutative), is zero exactly for one place, satisfies the triangle inequality, and is missing where a place is missing; Latitude and Longitude give the parts of every place.", "quantifier": "all latitudes and longitudes, all columns with missing places and any index labels", "why_tests_cant": "tests compare a few rounded distances; symmetry, the triangle inequality and the domain of the arc sine are statements about all real numbers", "anchors": ["featuretools/primitives/standard/transform_primitive.py:Haversine", "featuretools/primitives/standard/transform_primitive.py:Latitude", "featuretools/primitives/standard/transform_primitive.py:Longitude", "featuretools/utils/entity_utils.py:replace_latlong_nan"]}
{"id": "C80", "title": "Entropy is the entropy of the distribution of values", "statement": "Entropy gives, for every column of values, the average over the rows of minus the logarithm of the share of rows with the same value, to the given base; it lies between 0 and the logarithm of the number of different values, is 0 exactly if all values are alike and largest if all are equally frequent, and depends neither on the order of the rows nor on what the values are. Missing values are a category of their own or left out, as dropna says.", "quantifier": "all columns of values, with and without missing ones, all bases, both settings of dropna, all orders of the rows", "why_tests_cant": "tests compare one rounded number for one list; the bounds and the cases of equality are statements about all distributions", "anchors": ["featuretools/primitives/standard/aggregation_primitives.py:Entropy"]}
{"id": "C81", "title": "Year, Month, Day, Weekday, Week, IsWeekend, Hour, Minute and Second are the parts of the date", "statement": "For every moment, the primitives about dates give the date of its day in the Gregorian calendar, the day of the week (Monday is 0), whether it is a Saturday or Sunday, the week of the year, and the time of day; a missing moment has no parts. The week is documented as: the first week starts on January 1 and the number is incremented each Monday.", "quantifier": "all moments, before and after 1970, all years", "why_tests_cant": "tests look at three dates; leap years, centuries and the weeks at the ends of years are rules about all years", "anchors": ["featuretools/primitives/standard/transform_primitive.py:Year", "featuretools/primitives/standard/transform_primitive.py:Month", "featuretools/primitives/standard/transform_primitive.py:Day", "featuretools/primitives/standard/transform_primitive.py:Weekday", "featuretools/primitives/standard/transform_primitive.py:Week", "featuretools/primitives/standard/transform_primitive.py:IsWeekend", "featuretools/primitives/standard/transform_primitive.py:Hour", "featuretools/primitives/standard/transform_primitive.py:Minute", "featuretools/primitives/standard/transform_primitive.py:Second"]}
{"id": "C82", "title": "Age counts years", "statement": "Age gives, for every birth and every cutoff time, a number of years that is at least k from the k-th birthday on and less than k before it; without a birth it is missing.", "quantifier": "all births (but on leap days, which have no birthday in most years), all cutoff times, all k", "why_tests_cant": "tests compare three ages; leap days accumulate, so the error depends on the number of years", "anchors": ["featuretools/primitives/standard/transform_primitive.py:Age"]}
{"id": "C83", "title": "NumWords and NumCharacters count words and characters", "statement": "For every text, NumWords gives the number of its words and NumCharacters the number of its characters; a missing text has neither words nor characters.", "quantifier": "all columns of texts, with any spaces, line breaks and missing texts", "why_tests_cant": "tests use well-formed sentences; the rule must hold for every text", "anchors": ["featuretools/primitives/standard/transform_primitive.py:NumWords", "featuretools/primitives/standard/transform_primitive.py:NumCharacters"]}
{"id": "C84", "title": "Encoding in place leaves the caller's matrix equal to the result", "statement": "encode_features gives the same result with and without inplace. Without inplace the caller's matrix is unchanged, whether the call succeeds or fails. With inplace, after a successful call the caller's matrix has the columns of the result with the same values, in the same order; after a failed call it is unchanged.", "quantifier": "all matrices, lists of features, values of top_n, include_unknown, drop_first and to_encode, and both values of inplace", "why_tests_cant": "the effect on the argument depends on every combination of features, repeated values and the place where the call fails", "anchors": ["featuretools/synthesis/encode_features.py:encode_features"]}
{"id": "C85", "title": "The time primitives agree with each other", "statement": "TimeSincePrevious gives each row the time since the row before it, in the requested unit: by how much TimeSince falls between the two rows, whatever the cutoff. Over a column the values add up to TimeSinceFirst minus TimeSinceLast, and AvgTimeBetween is their mean when rows are in the order of time. An unknown unit is refused.", "quantifier": "all columns of times with any missing ones, all cutoffs and all units", "why_tests_cant": "agreement between primitives must hold for every column and unit; tests check each primitive on one column", "anchors": ["featuretools/primitives/standard/transform_primitive.py:TimeSincePrevious", "featuretools/primitives/standard/transform_primitive.py:TimeSince", "featuretools/primitives/standard/aggregation_primitives.py:AvgTimeBetween", "featuretools/primitives/standard/aggregation_primitives.py:TimeSinceFirst", "featuretools/primitives/standard/aggregation_primitives.py:TimeSinceLast", "featuretools/utils/time_utils.py:convert_time_units"]}
{"id": "C86", "title": "Progress reports grow steadily to 100 percent", "statement": "A progress_callback given to calculate_feature_matrix is told non-negative updates; each progress percentage is the one before plus the update; the percentages never fall and never pass 95 before the last call; the last call reports exactly 100, and all updates add up to 100. This holds for one process and for many, in whatever order chunks arrive.", "quantifier": "all lists of features, data (empty frames, precalculated features), cutoffs, chunk sizes and orders of arrival", "why_tests_cant": "each kind of feature reports in its own way and the shares have to add up over every tree of entities, chunk and schedule", "anchors": ["featuretools/computational_backends/calculate_feature_matrix.py:calculate_feature_matrix", "featuretools/computational_backends/calculate_feature_matrix.py:calculate_chunk", "featuretools/computational_backends/calculate_feature_matrix.py:parallel_calculate_chunks", "featuretools/computational_backends/calculate_feature_matrix.py:update_progress_callback_parameters", "featuretools/computational_backends/feature_set_calculator.py:FeatureSetCalculator"]}
{"id": "C87", "title": "Leaving out one order of the inputs of a commutative primitive loses nothing", "statement": "A standard primitive of two columns that is marked as commutative gives the same values when its columns are swapped, so for every ordered pair of features that matches its inputs, deep feature synthesis builds a feature with the same values. A primitive that is not marked gives other values for some columns.", "quantifier": "all standard primitives of two columns, all columns, all pools of features and signatures", "why_tests_cant": "equality of the two orders must hold for every pair of columns, missing values included", "anchors": ["featuretools/primitives/standard/binary_transform.py", "featuretools/synthesis/deep_feature_synthesis.py:match"]}
{"id": "C88", "title": "Mistakes in primitive options are reported", "statement": "primitive_options are accepted exactly when every option is one of the documented ones with a value of the documented form, lists of options have one for each input, and no primitive is given twice. What is accepted is read with exactly the names written, and each entity or variable named that does not exist gives a warning, no other does. A primitive named that does not exist is reported too.", "quantifier": "all values given as primitive_options, all entity sets", "why_tests_cant": "every misspelling and every nesting of values must be caught or warned of, not the few tried in tests", "anchors": ["featuretools/primitives/options_utils.py:_init_option_dict", "featuretools/primitives/options_utils.py:_init_primitive_options", "featuretools/primitives/options_utils.py:list_entity_check", "featuretools/primitives/options_utils.py:dict_to_list_variable_check"]}
{"id": "C89", "title": "Dividing features gives the exact quotient, and shows where there is none", "statement": "A feature built with + - * / from numeric features and numbers has, in each row where the expression is defined, its exact value. It is missing where a feature used is missing, and a division by zero gives the infinity of the sign of the dividend, or a missing value for zero by zero; a row where the expression is undefined never gets an ordinary number. Different expressions have different names.", "quantifier": "all expressions over numeric features and numbers, on either side, all rows and values", "why_tests_cant": "must hold for every nesting of the operators and every value, zeros, infinities and missing values included", "anchors": ["featuretools/feature_base/feature_base.py:FeatureBase.__truediv__", "featuretools/feature_base/feature_base.py:FeatureBase.__rtruediv__", "featuretools/primitives/standard/binary_transform.py:DivideNumeric", "featuretools/primitives/standard/binary_transform.py:DivideByFeature"]}
{"id": "C90", "title": "Seed features on the target are returned", "statement": "Every seed feature defined on the target entity is among the features dfs returns (when all variable types are returned, max_features is not used and its name is not dropped), however deep it is, and giving seed features does not lose columns of the target.", "quantifier": "all entity sets, primitives, options and depth limits, all lists of seed features", "why_tests_cant": "whether a seed survives depends on every feature the search builds later, on all entities, since later features are stored under the same names", "anchors": ["featuretools/synthesis/deep_feature_synthesis.py:DeepFeatureSynthesis._add_identity_features", "featuretools/synthesis/deep_feature_synthesis.py:DeepFeatureSynthesis._handle_new_feature", "featuretools/synthesis/deep_feature_synthesis.py:DeepFeatureSynthesis.build_features"]}
{"id": "C91", "title": "list_primitives lists every primitive once, and describes it", "statement": "list_primitives has, for every named primitive class exported by featuretools.primitives, one row with its type and its lower-case name; every row gives the first line of the documentation, the supported libraries, the names of all input types anywhere in the declared signatures, each once, and the return type of such a class; and the table is the same in every process.", "quantifier": "all modules of primitives, all names, documentation strings and nested signatures, all orders in which sets may be iterated", "why_tests_cant": "the classes and the names of types are collected in sets, whose order changes from process to process, and signatures nest to any depth", "anchors": ["featuretools/primitives/utils.py:list_primitives", "featuretools/primitives/utils.py:get_aggregation_primitives", "featuretools/primitives/utils.py:get_transform_primitives", "featuretools/primitives/utils.py:_get_names_valid_inputs", "featuretools/primitives/utils.py:_get_descriptions"]}
{"id": "C92", "title": "A file that defines one primitive can be found and loaded", "statement": "load_primitive_from_file returns the primitive of a file exactly when the file has one, and list_primitive_files finds, in a directory, exactly the files with a fitting name.", "quantifier": "all contents of the file's namespace, all directories, file names and current directories", "why_tests_cant": "depends on every name the file binds, imported ones included, and on the directory the process happens to run in", "anchors": ["featuretools/primitives/utils.py:load_primitive_from_file", "featuretools/primitives/utils.py:list_primitive_files", "featuretools/primitives/utils.py:check_valid_primitive_path"]}
{"id": "C93", "title": "EntitySet.plot draws the entity set and writes only the file asked for", "statement": "plot draws one node for each entity, with its name, number of rows, variables and their types, and one edge from child to parent for each relationship, with both variables. With to_file it writes the picture to that file, refuses a name without a known format, and changes no other file.", "quantifier": "all entity sets, names, relationships, target file names and existing files", "why_tests_cant": "names are free text and meet the syntax of the drawing library and of file names", "anchors": ["featuretools/entityset/entityset.py:EntitySet.plot", "featuretools/utils/plot_utils.py:get_graphviz_format", "featuretools/utils/plot_utils.py:save_graph"]}
{"id": "C94", "title": "A variable type is known by its type string", "statement": "The type string of a variable type is its class name in lower case, with an underscore before each capital that is not first and comes after a small letter or digit or before a small letter. Different types have different type strings. A type given by its string to an entity, or written to a saved entity set, is found again; a string no type has gives Unknown.", "quantifier": "all class names, all trees of subclasses of Variable (including the user's own) and all type strings", "why_tests_cant": "users derive their own variable types with names of their own, and the conversion works by two regular expressions that must fit every name", "anchors": ["featuretools/utils/gen_utils.py:camel_to_snake", "featuretools/utils/gen_utils.py:find_descendents", "featuretools/variable_types/utils.py:find_variable_types", "featuretools/variable_types/variable.py:ClassNameDescriptor", "featuretools/entityset/entity.py:Entity.create_variables", "featuretools/entityset/deserialize.py:description_to_variable"]}
{"id": "C95", "title": "Entry points registered for dfs hear of each call without changing it", "statement": "Every registered entry point is told of a call of dfs before it runs, with all arguments given under their parameter names, and afterwards exactly once of its value or its error. The function runs once with the caller's arguments, and the caller gets its value or its error, whatever the entry points do.", "quantifier": "all functions, arguments, numbers and behaviours of entry points", "why_tests_cant": "entry points are other people's packages: any may be installed, may change what it is sent, and may fail at any report", "anchors": ["featuretools/utils/entry_point.py:entry_point", "featuretools/synthesis/dfs.py:dfs"]}
{"id": "C96", "title": "Log levels follow the environment variables", "statement": "On import, the three environment variables set the levels of the main, entity set and backend messages, in small letters or capitals, INFO being the default; a value that is no level is reported. A message at or above its level is written exactly once, and one below is not written.", "quantifier": "all environments, earlier logger states, levels and messages", "why_tests_cant": "the outcome depends on the state other code left the process-wide loggers in, and on which names the modules log under", "anchors": ["featuretools/config_init.py:initialize_logging", "featuretools/computational_backends/calculate_feature_matrix.py:logger"]}
{"id": "C97", "title": "Cleaning a dataframe for Koalas keeps its data", "statement": "pd_to_ks_clean turns tuples into lists, replaces NaN inside them by -1 and turns categories into plain columns. All names, rows and other values stay, and every dataframe is accepted.", "quantifier": "all dataframes, with any number of rows and columns, tuples, lists, categories and missing values", "why_tests_cant": "whether a column is treated depends on its first row, and the rest of the column may hold anything", "anchors": ["featuretools/utils/koalas_utils.py:pd_to_ks_clean", "featuretools/utils/koalas_utils.py:replace_tuple_columns", "featuretools/utils/koalas_utils.py:replace_nan_with_flag", "featuretools/utils/koalas_utils.py:replace_categorical_columns"]}
