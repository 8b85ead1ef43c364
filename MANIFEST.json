{
 "claims": [
  {
   "property": "C01",
   "status": "partial",
   "theorems": [
    "C01_split_refuted",
    "C01_split_partial",
    "C01_split_stronger",
    "C01_joins_join",
    "C01_filters_no_join",
    "C01_comparison_filter_one_table",
    "C01_filter_two_tables_refuted"
   ],
   "note": "Split into filters and joins is exact in 3VL for every predicate without mixed disjunctions; mixed disjunctions are refuted; reported joins touch two tables; BETWEEN/IN filters over two tables refuted."
  },
  {
   "property": "C02",
   "status": "partial",
   "theorems": [
    "C02_refuted",
    "C02_raises_refuted",
    "C02_flatten_partial"
   ],
   "note": "Exact for every tree except nested conjunctions that repeat one single OR/NOT (refuted there: meaning changes / TypeError)."
  },
  {
   "property": "C03",
   "status": "partial",
   "theorems": [
    "C03_reading_unique",
    "C03_text_partial",
    "C03_quick_format",
    "C03_text_refuted",
    "C03_negated_conjunction_refuted"
   ],
   "note": "True in three-valued logic for all predicates without a conjunction directly below NOT, with the reading proved unique; refuted for negated conjunctions: NOT (a AND b) prints NOT a AND b. Base predicates are atoms of the text."
  },
  {
   "property": "C04",
   "status": "partial",
   "theorems": [
    "C04_reading_unique",
    "C04_value_partial",
    "C04_two_operators_refuted",
    "C04_sign_refuted"
   ],
   "note": "True, for every arithmetic with associative + * ||, of the expressions whose unbracketed inner operators bind tight enough (faithful), with the reading proved unique; refuted for all other expressions of two operators (a - (b - c), (a + b) * c, a % (b * c), ...), for signs of sums and for double minus signs, which start a comment. Names, calls, casts and the like are atoms of the text."
  },
  {
   "property": "C05",
   "status": "partial",
   "theorems": [
    "C05_reported_occurs",
    "C05_complete_partial",
    "C05_complete_refuted"
   ],
   "note": "Soundness for all expressions; completeness for expressions without the shapes that lose columns (covered), refuted for bare columns in CASE, PARTITION BY and for arithmetic over sequences."
  },
  {
   "property": "C06",
   "status": "partial",
   "theorems": [
    "C06_equivalence",
    "C06_meaning",
    "C06_hash_partial",
    "C06_hash_refuted",
    "C06_views_refuted"
   ],
   "note": "Reflexivity and symmetry for all predicates; equal => equal hash without IN; refuted for IN (tuple hash against set equality) and for the SimpleFilter/SimpleJoin views."
  },
  {
   "property": "C07",
   "status": "partial",
   "theorems": [
    "C07_meaning_partial",
    "C07_meaning_refuted"
   ],
   "note": "Same meaning without casts when the column comes first or the operator is symmetric; refuted for 5 < R.a and for dropped casts."
  },
  {
   "property": "C08",
   "status": "partial",
   "theorems": [
    "C08_symmetric",
    "C08_exact_partial",
    "C08_refuted"
   ],
   "note": "Symmetry for all maps; exactness for joins over exactly two tables; refuted for joins over three tables."
  },
  {
   "property": "C09",
   "status": "partial",
   "theorems": [
    "C09_connectivity",
    "C09_singleton",
    "C09_singleton_refuted"
   ],
   "note": "Decides connectivity for every iteration order for two or more tables; single tables without predicates are answered False (refuted literal reading)."
  },
  {
   "property": "C10",
   "status": "partial",
   "theorems": [
    "C10_check_partial",
    "C10_unmentioned_table_refuted",
    "C10_no_predicates_refuted",
    "C10_contains_cross_product_refuted",
    "C10_single_table_refuted"
   ],
   "note": "Right on tables occurring in predicates; refuted for FROM tables without predicates, empty predicates and contains_cross_product()."
  },
  {
   "property": "C11",
   "status": "partial",
   "theorems": [
    "C11_classes",
    "C11_non_equi_refuted",
    "C11_compound_refuted",
    "C11_same_rows_partial",
    "C11_all_equalities"
   ],
   "note": "Classes = connected components proved; WHERE equivalence for column equi-joins; refuted for other joins."
  },
  {
   "property": "C12",
   "status": "partial",
   "theorems": [
    "C12_or_refuted",
    "C12_not_refuted",
    "C12_tables",
    "C12_implied_partial"
   ],
   "note": "Tables always right; implication for NOT-free predicates whose disjunctions are kept or dropped as a whole; refuted otherwise."
  },
  {
   "property": "C13",
   "status": "partial",
   "theorems": [
    "C13_expression_partial",
    "C13_predicate_partial",
    "C13_succeeds_partial",
    "C13_filter_refuted",
    "C13_raises_refuted",
    "C13_rename",
    "C13_rename_columns"
   ],
   "note": "Predicate-level theorem over opaque expressions (Trans_props) and expression-level theorem for all expressions without function FILTER; refuted: FILTER is dropped, and errors for array access, sequence arithmetic and simple CASE."
  },
  {
   "property": "C14",
   "status": "partial",
   "theorems": [
    "C14_same_rows_partial",
    "C14_no_condition_refuted",
    "C14_repeated_or_refuted"
   ],
   "note": "Same row combinations for all inner-join trees with at least one condition (minus the C02 exception); refuted without any condition."
  },
  {
   "property": "C15",
   "status": "partial",
   "theorems": [
    "C15_total_refuted",
    "C15_total_partial"
   ],
   "note": "Exact characterisation of when the predicate view raises; refuted in general."
  },
  {
   "property": "C16",
   "status": "partial",
   "theorems": [
    "C16_round_trip_partial",
    "C16_round_trip_equal_partial",
    "C16_built_fits",
    "C16_round_trip_class_refuted",
    "C16_equality",
    "C16_add_clause_partial",
    "C16_add_one_partial",
    "C16_add_mixing_raises",
    "C16_add_set_operation_refuted",
    "C16_add_same_set_operation_partial",
    "C16_drop_clause",
    "C16_drop_required_raises",
    "C16_drop_by_class_refuted",
    "C16_drop_limit_class_refuted",
    "C16_drop_added_partial",
    "C16_replace_clause",
    "C16_replace_order_irrelevant",
    "C16_replace_from_lost_refuted"
   ],
   "note": "Round trip is the identity for queries whose class fits their FROM clause, which includes everything build_query produces; add/drop/replace are characterised slot by slot. Refuted: classes that do not fit are not preserved, a second set operation is silently ignored by add_clause, drop_clause matches exact classes only, replace_clause loses a FROM clause of another class."
  },
  {
   "property": "C17",
   "status": "partial",
   "theorems": [
    "C17_generic_text",
    "C17_postgres_format_partial",
    "C17_postgres_text_partial",
    "C17_zero_limit_lost_refuted",
    "C17_postgres_clause_partial",
    "C17_vanilla_format_partial",
    "C17_vanilla_order_refuted",
    "C17_backward_directions_refuted"
   ],
   "note": "Limit.__str__ and the generic printing of FETCH are right for FIRST/NEXT and for PostgresLimitClause. Refuted: LIMIT 0 is dropped by the PostgreSQL clause (truth test on the number), the vanilla clause prints FETCH before OFFSET, and the directions PRIOR/LAST are printed as they are."
  },
  {
   "property": "C18",
   "status": "partial",
   "theorems": [
    "C18_table_json_partial",
    "C18_table_json_schema_partial",
    "C18_column_json_partial",
    "C18_table_json_refuted"
   ],
   "note": "True attribute by attribute for references without a schema. Refuted for every reference with a schema: the writer uses the key schema, the reader schemaname."
  },
  {
   "property": "C19",
   "status": "partial",
   "theorems": [
    "C19_quote_partial",
    "C19_quote_characterization",
    "C19_quote_refuted",
    "C19_quote_not_a_token_refuted",
    "C19_reserved_refuted",
    "C19_quote_injective"
   ],
   "note": "Exact characterisation: a name is denoted by its quoted form iff it contains no double quote (assuming the lexer reserves only words from the library's list). Refuted for names with a double quote and for PostgreSQL words missing from the list (analyze, freeze, ...)."
  },
  {
   "property": "C20",
   "status": "partial",
   "theorems": [
    "C20_optimal_partial",
    "C20_order_independent",
    "C20_setting",
    "C20_operators_refuted"
   ],
   "note": "Proved for every strict weak cost order, monotone cost model, set of scan operators and iteration order, relative to plans built from nested-loop, hash and sort-merge joins (DP_model: opt/dynprog.py 50-435; C20_setting ties the connectivity test to C09). Refuted for the full operator set: index nested-loop joins are allowed by default but never considered (documented in the class docstring)."
  },
  {
   "property": "C21",
   "status": "partial",
   "theorems": [
    "C21_complete",
    "C21_found_partial",
    "C21_disconnected",
    "C21_operators_refuted"
   ],
   "note": "Coverage, uniqueness and connectedness of the returned plan proved for every cost model. A plan is found for connected join graphs if every table can be scanned and one of the three considered join operators is allowed; with only IndexNestedLoopJoin allowed a ValueError is raised. A disconnected join graph gives a KeyError."
  },
  {
   "property": "C22",
   "status": "partial",
   "theorems": [
    "C22_n_m_partial",
    "C22_pk_fk",
    "C22_condition_partial",
    "C22_refuted"
   ],
   "note": "Relations are lists of rows with NULLs; the estimator runs on the double-precision Cardinality model. Proved: PK/FK bounds are sound; n:m bounds are sound when the divisions are exact and otherwise fall short by at most the product of the frequencies; the minimum over a conjunction is sound. Refuted in general: Cardinality division rounds (14 rows, frequency 10 gives bound 10 for a join of 14 rows)."
  },
  {
   "property": "C23",
   "status": "partial",
   "theorems": [
    "C23_bushy",
    "C23_base_table",
    "C23_linear",
    "C23_exhausted_refuted"
   ],
   "note": "Drawing is proved for all random choices: bushy (with and without a base table) and both linear shapes give complete, cross-product free trees and terminate. Refuted for eliminate_duplicates: the generator loops forever once all join orders have been drawn, so 'sampling always terminates' fails."
  },
  {
   "property": "C24",
   "status": "proved",
   "theorems": [
    "C24_sound",
    "C24_once",
    "C24_linear_sound"
   ],
   "note": "Proved for the bushy enumeration (soundness and absence of duplicates) and for the linear enumerator. The left-deep and right-deep options produce nothing (see C66)."
  },
  {
   "property": "C25",
   "status": "proved",
   "theorems": [
    "C25_states",
    "C25_monotone",
    "C25_paths",
    "C25_clone",
    "C25_separate",
    "C25_indexes"
   ],
   "note": "Proved for every query graph and every history of marks and clones, with the mutable state in a heap. Query predicates and schema information are parameters."
  },
  {
   "property": "C26",
   "status": "proved",
   "theorems": [
    "C26_tables",
    "C26_iternodes",
    "C26_once",
    "C26_itertables",
    "C26_iterjoins",
    "C26_lookup",
    "C26_contains",
    "C26_join_with",
    "C26_join_with_table",
    "C26_equality",
    "C26_from_sequence",
    "C26_depth",
    "C26_base_join",
    "C26_update"
   ],
   "note": "Proved for all join trees without empty parts."
  },
  {
   "property": "C27",
   "status": "partial",
   "theorems": [
    "C27_linear_partial",
    "C27_linear_refuted"
   ],
   "note": "Proved: linear trees are always recognised, and the answer is right for trees with at most four leaves. Refuted for larger trees: only the root is inspected, so a bushy join below the root is called linear."
  },
  {
   "property": "C28",
   "status": "partial",
   "theorems": [
    "C28_roundtrip_partial",
    "C28_roundtrip_refuted"
   ],
   "note": "Proved for plain trees over tables without a schema. Refuted otherwise (schema names and logical trees do not come back)."
  },
  {
   "property": "C29",
   "status": "partial",
   "theorems": [
    "C29_last_partial",
    "C29_intermediates",
    "C29_global",
    "C29_errors",
    "C29_overwrite_refuted",
    "C29_single_refuted",
    "C29_merge",
    "C29_merge_get",
    "C29_wf",
    "C29_global_only",
    "C29_independent",
    "C29_equality_partial",
    "C29_equality_refuted",
    "C29_hash_refuted"
   ],
   "note": "Proved for tables and sets of tables without overwriting, merging, independence of clones. Refuted: overwriting keeps scans and joins, a single table in an iterable is not found, equality ignores intermediates, the hash depends on the insertion order."
  },
  {
   "property": "C30",
   "status": "partial",
   "theorems": [
    "C30_merge_partial",
    "C30_mode_refuted",
    "C30_setters",
    "C30_drop_workers"
   ],
   "note": "Proved for cardinalities, workers and settings; refuted for the execution mode, which is always dropped."
  },
  {
   "property": "C31",
   "status": "partial",
   "theorems": [
    "C31_pglab_join_order_partial",
    "C31_hintplan_join_order_partial",
    "C31_pglab_operators_partial",
    "C31_pglab_only_assigned",
    "C31_pglab_total",
    "C31_pglab_unsupported",
    "C31_hintplan_operators_partial",
    "C31_join_order_refuted",
    "C31_pglab_parallel_refuted",
    "C31_hintplan_index_scan_refuted"
   ],
   "note": "Modelled with real strings: operator tables, _walk_join_order, _generate_pglab_hints and _generate_pghintplan_hints. Proved: the block determines the join order if identifiers are single words and tables have different identifiers; every assigned operator gets its hint with its keyword, exactly its tables and its workers if at most one operator is parallel; no hint for anything else; generation succeeds for all supported operators and fails for index nested-loop joins. Refuted: identifiers with spaces give the same hint for different join orders (identifiers are written without quotes); with a second parallel operator the hint of the previous operator is repeated and its own is lost; pg_hint_plan is told to use an index-only scan for an assigned index scan. For less than two tables there is no join order hint."
  },
  {
   "property": "C32",
   "status": "partial",
   "theorems": [
    "C32_below_range",
    "C32_below_monotone",
    "C32_above_range_partial",
    "C32_above_range_refuted",
    "C32_above_fails",
    "C32_above_monotone_refuted",
    "C32_above_partial",
    "C32_below_bound_refuted",
    "C32_above_bound_refuted",
    "C32_below_bound_partial",
    "C32_extremes",
    "C32_infer_partial",
    "C32_infer_refuted",
    "C32_bins_refuted",
    "C32_lost_rows_refuted"
   ],
   "note": "frequency_below lies in [0, n_rows] and is monotone for both interpolations (C32_below_range, C32_below_monotone); equi-depth histograms: exact at bounds and short by at most one bucket (C32_below_bound_partial); exact beyond the bounds (C32_extremes). Refuted: the bound interpolation is no upper bound; frequency_above counts the wrong side (grows with v), approx-uni exceeds the rows or raises IndexError in the last bucket; _infer_histogram_bounds drops the rows behind the last full bucket and may make more bins than asked for. C32_infer_partial says what the inferred bounds do satisfy."
  },
  {
   "property": "C33",
   "status": "proved",
   "theorems": [
    "C33_order",
    "C33_partition",
    "C33_min_max",
    "C33_frequency"
   ],
   "note": "All lists, all k >= 0."
  },
  {
   "property": "C34",
   "status": "proved",
   "theorems": [
    "C34_history",
    "C34_recommendation",
    "C34_invalid"
   ],
   "note": "Costs are exact rationals (the code uses doubles, so sums are rounded there). A recommendation needs at least two operators with costs."
  },
  {
   "property": "C35",
   "status": "partial",
   "theorems": [
    "C35_kept_were_offered",
    "C35_subsumption_is_sound",
    "C35_cost_any_history_partial",
    "C35_cost_single_key_partial",
    "C35_unrelated_orders_covered_partial",
    "C35_cheapest_is_minimal",
    "C35_cheapest_overall_partial",
    "C35_sorted_path_discarded_refuted",
    "C35_evictor_discarded_refuted",
    "C35_cost_loss_unbounded_refuted"
   ],
   "note": "False as stated in three ways, each with a witness: a sorted path is discarded for a cheaper unsorted one; a new path may evict an old path and then be discarded itself; and the cost loss compounds without any bound over a history. Proved: retained paths were offered; the sort order test is sound (judged on row sequences); no loss at all when no two offered sort orders are strictly comparable; a single fuzz factor bounds the cost when paths have at most one sort key (hence the selected cheapest path is within 1%); fuzz^n in general. Costs are exact rationals instead of doubles."
  },
  {
   "property": "C36",
   "status": "partial",
   "theorems": [
    "C36_lt_partial",
    "C36_gt_partial",
    "C36_total_order_partial",
    "C36_plain_numbers_partial",
    "C36_eq_raises",
    "C36_min",
    "C36_gt_infinity_refuted",
    "C36_ge_infinity_refuted",
    "C36_eq_infinity_refuted",
    "C36_max_infinity_refuted",
    "C36_eq_same"
   ],
   "note": "Proved for finite cardinalities and plain numbers, < for all values; refuted for > and >= with infinity."
  },
  {
   "property": "C37",
   "status": "partial",
   "theorems": [
    "C37_exact_partial",
    "C37_division",
    "C37_nan_left_partial",
    "C37_nan_right_partial",
    "C37_inf_add_partial",
    "C37_inf_sub_partial",
    "C37_inf_mul_partial",
    "C37_inf_div_partial",
    "C37_hash",
    "C37_hash_distinct",
    "C37_sum_refuted",
    "C37_product_refuted",
    "C37_infinity_refuted",
    "C37_raises_refuted",
    "C37_remainder",
    "C37_remainder_special",
    "C37_floordiv_refuted",
    "C37_floordiv_partial"
   ],
   "note": "Proved below 2^53 and for the remainder; refuted above 2^53, for some operations with infinity and for floor division, which rounds."
  },
  {
   "property": "C38",
   "status": "partial",
   "theorems": [
    "C38_queue_fifo_refuted",
    "C38_queue_fifo_partial",
    "C38_sized_queue_most_recent",
    "C38_sized_queue_capacity",
    "C38_sized_queue_extend_refuted",
    "C38_sized_queue_init_refuted"
   ],
   "note": "Queue.pop keeps falsy heads (refuted), FIFO proved for truthy elements; SizedQueue: most-recent-elements and capacity proved for append/pop, extend and constructor refuted."
  },
  {
   "property": "C39",
   "status": "proved",
   "theorems": [
    "C39_bounded_int_stays_in_range",
    "C39_bounded_int_constructor",
    "C39_bounded_int_clamps_exact_result"
   ],
   "note": "All operations that yield a BoundedInt; plain-int results are not modelled."
  },
  {
   "property": "C40",
   "status": "partial",
   "theorems": [
    "C40_no_lost_update",
    "C40_linearizable",
    "C40_always_finishes_refuted",
    "C40_always_finishes_partial",
    "C40_reflected_operators_refuted",
    "C40_operators_partial"
   ],
   "note": "Linearizability and no lost updates for all interleavings; unary plus deadlocks and reflected & adds (refuted)."
  },
  {
   "property": "C41",
   "status": "proved",
   "theorems": [
    "C41_version_lt",
    "C41_version_le",
    "C41_version_eq",
    "C41_version_total_order"
   ],
   "note": "Total lexicographic order on component lists."
  },
  {
   "property": "C42",
   "status": "proved",
   "theorems": [
    "C42_powerset_all_subsets",
    "C42_powerset_each_subset_once",
    "C42_powerset_no_repetition",
    "C42_powerset_size",
    "C42_powerset_by_size",
    "C42_pairs_each_once",
    "C42_sliding_window_each_once"
   ],
   "note": "powerset, pairs, sliding_window fully proved."
  },
  {
   "property": "C43",
   "status": "partial",
   "theorems": [
    "C43_dependencies_first_refuted",
    "C43_each_task_once_refuted",
    "C43_each_task_once_partial"
   ],
   "note": "Dependencies-first and exactly-once are refuted; exactly once proved for acyclic graphs whose tasks are registered once."
  },
  {
   "property": "C44",
   "status": "partial",
   "theorems": [
    "C44_merge_default",
    "C44_merge_updater",
    "C44_intersection",
    "C44_difference",
    "C44_generate_multi",
    "C44_aggregate",
    "C44_argmin",
    "C44_argmax",
    "C44_invert_multi_refuted",
    "C44_invert_multi_partial",
    "C44_hash_dict_refuted"
   ],
   "note": "merge/intersection/difference/multi-dict/argmin/argmax proved; invert_multi and hash_dict refuted."
  },
  {
   "property": "C45",
   "status": "partial",
   "theorems": [
    "C45_compound_query",
    "C45_compound_reasons",
    "C45_compound_db_refuted",
    "C45_merge_partial",
    "C45_merge_refuted",
    "C45_merge_once",
    "C45_results_partial",
    "C45_results_refuted"
   ],
   "note": "Proved for queries and compound checks (acceptance and reasons). Refuted for database systems: CompoundCheck does not override check_supported_database_system, so it accepts every system. Refuted for merge_checks: equality only looks at class and name, so different custom checks (default name) or hint checks are collapsed; partial: correct if equal checks behave alike. PreCheckResult.merge drops a failure with an empty list of reasons."
  },
  {
   "property": "C46",
   "status": "partial",
   "theorems": [
    "C46_incremental",
    "C46_integrated_refuted",
    "C46_integrated_partial",
    "C46_textbook_partial",
    "C46_textbook_refuted",
    "C46_textbook_rebuild",
    "C46_multi_partial",
    "C46_multi_refuted",
    "C46_multi_rebuild"
   ],
   "note": "Proved for the incremental pipeline, and for all call sequences that the textbook and multi-stage pipelines need a new build() after a change. Refuted for the integrated pipeline (setup does not reset the build flag, a failing build() neither) and for textbook/multi-stage pipelines with two different checks (the compound check accepts every database system, C45). Partial results cover careful use of the integrated pipeline and components with at most one check."
  },
  {
   "property": "C47",
   "status": "partial",
   "theorems": [
    "C47_log_partial",
    "C47_empty_refuted",
    "C47_preparation_refuted",
    "C47_timeout_refuted"
   ],
   "note": "Proved for error_action 'log' whenever some query is due, query preparation works and no timeout meets online training: one row per due execution, in order, indices 1..n, each row describing its own outcome. Refuted for empty workloads (ValueError), for failing query preparation (outside the try block) and for a timeout with online training (AssertionError) - all three abort the benchmark and lose all results."
  },
  {
   "property": "C48",
   "status": "partial",
   "theorems": [
    "C48_ignore_partial",
    "C48_single_partial",
    "C48_mixed_refuted",
    "C48_all_refuted",
    "C48_stale_refuted"
   ],
   "note": "Proved if for each query all executions fail or none does (always the case with one repetition) and at least one query can be optimized. Refuted for several repetitions with some failures (columns of different lengths, ValueError, all results lost), for workloads without any optimizable query, and a failed repetition emits the previous result again."
  },
  {
   "property": "C49",
   "status": "partial",
   "theorems": [
    "C49_agree",
    "C49_select",
    "C49_algebra",
    "C49_first",
    "C49_last_partial",
    "C49_random",
    "C49_relabel_partial",
    "C49_last_refuted",
    "C49_mutation_refuted",
    "C49_relabel_refuted"
   ],
   "note": "Proved for every workload obtained by any sequence of the non-mutating operations, all random choices and any natural sort that permutes: entries() agree with item access, label_of, selections, algebra, first, pick_random, shuffle; last for n >= 1; relabel for distinct new labels. Refuted: last(0) returns everything, item assignment/deletion leave entries() and label_of() stale, relabelling loses queries with equal labels."
  },
  {
   "property": "C50",
   "status": "partial",
   "theorems": [
    "C50_raise",
    "C50_read_partial",
    "C50_parsed_partial",
    "C50_stale_refuted",
    "C50_names_refuted"
   ],
   "note": "Proved: 'raise' succeeds exactly if all files parse; files with distinct names that all parse are bound to their own labels; parsable files are always bound to their own query. Refuted for 'warn'/'ignore': an unparsable file is bound to the previous file's query, or UnboundLocalError if it is the first one; and for equal file names in different directories."
  },
  {
   "property": "C51",
   "status": "partial",
   "theorems": [
    "C51_session_partial",
    "C51_sessions_partial",
    "C51_values_partial",
    "C51_single_column",
    "C51_tuples_refuted",
    "C51_aliasing_refuted",
    "C51_opaque_refuted",
    "C51_hook_refuted",
    "C51_timeout_refuted"
   ],
   "note": "Proved: exact transparency within a session for callers that do not modify results; across sessions up to tuples vs lists, for values the JSON encoding can represent. Refuted: tuples come back as lists; raw results alias the cache; one Decimal corrupts the whole file; dictionaries with a '$date' key break loading; cached results with a timeout are not simplified. The database is an unchanging function of the query text."
  },
  {
   "property": "C52",
   "status": "partial",
   "theorems": [
    "C52_result",
    "C52_timeout_sound",
    "C52_timeout_complete",
    "C52_error_sound",
    "C52_result_sound",
    "C52_protocol",
    "C52_returns_partial",
    "C52_traces",
    "C52_crash_refuted",
    "C52_no_result_refuted"
   ],
   "note": "Proved for every worker behaviour and every delay of the main process: results, timeouts (sound and complete), errors, cancellation, no protocol errors. 'Always returns' is proved only for workers that do not die and can send their exceptions; refuted otherwise (the main process keeps the write end of the pipe open). Statements without a result raise an error. Time is abstract."
  },
  {
   "property": "C53",
   "status": "partial",
   "theorems": [
    "C53_results_partial",
    "C53_callbacks_partial",
    "C53_callback_refuted",
    "C53_repeated_refuted",
    "C53_error_refuted",
    "C53_duplicates_refuted"
   ],
   "note": "Proved for every history of queue/drain calls and every completion order, for queries whose result depends on the query only and that do not fail. Refuted: the callback gets a pair instead of the result, repeated drains repeat callbacks, one failing query hides later results, queries queued twice share one result."
  },
  {
   "property": "C54",
   "status": "partial",
   "theorems": [
    "C54_changes_partial",
    "C54_add_setting_refuted",
    "C54_update_setting_refuted",
    "C54_setitem_refuted"
   ],
   "note": "Proved for every sequence of changes by name (add, add by keyword, update, remove, and removal by setting object). Refuted for setting objects in add()/update() (they are strings, and the string case comes first) and for item assignment of plain values."
  },
  {
   "property": "C55",
   "status": "partial",
   "theorems": [
    "C55_history_partial",
    "C55_qualified_refuted"
   ],
   "note": "Proved for every history of initialisations and lookups of tables without a database schema. Refuted for schema-qualified tables: only the table name is looked up and cached."
  },
  {
   "property": "C56",
   "status": "partial",
   "theorems": [
    "C56_random_walk",
    "C56_frontier_walks",
    "C56_bfs_refuted",
    "C56_bfs_partial"
   ],
   "note": "Random walks and frontier walks proved for all graphs and choices (random walks also for graphs that are not connected). Refuted for nx_bfs_tree: nodes reached over two paths are yielded twice and the start node is never yielded; partial: it terminates and yields exactly the other nodes."
  },
  {
   "property": "C57",
   "status": "partial",
   "theorems": [
    "C57_gone",
    "C57_compound_refuted",
    "C57_absent",
    "C57_conjunct"
   ],
   "note": "Gone / unchanged / exact for conjuncts proved; refuted that a removed compound predicate never reappears."
  },
  {
   "property": "C58",
   "status": "partial",
   "theorems": [
    "C58_table_eq_hash",
    "C58_column_eq_hash",
    "C58_table_eq_spec",
    "C58_table_order",
    "C58_column_order_spec",
    "C58_column_order",
    "C58_drop_alias",
    "C58_make_virtual",
    "C58_with_alias_loses_schema_refuted",
    "C58_update_loses_schema_refuted",
    "C58_with_alias_partial"
   ],
   "note": "Equality/hash/order proved. Refuted for with_alias and update without schema argument: both drop the schema."
  },
  {
   "property": "C59",
   "status": "partial",
   "theorems": [
    "C59_comparison_partial",
    "C59_abbreviations",
    "C59_comparison_refuted"
   ],
   "note": "BETWEEN, IN, NOT, AND, OR for all expressions; comparisons for expressions without the shapes that lose columns; refuted for a column inside CASE."
  },
  {
   "property": "C60",
   "status": "partial",
   "theorems": [
    "C60_wrap_all_partial",
    "C60_wrap_all_refuted"
   ],
   "note": "Proved for lists without conditions on constants; refuted because 1 = 1 raises AssertionError."
  },
  {
   "property": "C61",
   "status": "partial",
   "theorems": [
    "C61_logical_refuted",
    "C61_logical_partial"
   ],
   "note": "Refuted: join_with and update_annotation build plain join trees. Proved: joining with an empty tree, lookup and the traversals keep the class."
  },
  {
   "property": "C62",
   "status": "partial",
   "theorems": [
    "C62_scan_partial",
    "C62_join_partial",
    "C62_equivalence_partial",
    "C62_reflexive_refuted",
    "C62_constructors"
   ],
   "note": "Proved for assignments with workers; refuted: without workers an assignment is not equal to itself."
  },
  {
   "property": "C63",
   "status": "partial",
   "theorems": [
    "C63_joins_partial",
    "C63_scans_refuted"
   ],
   "note": "Proved for joins; refuted for scans, whose workers are never integrated."
  },
  {
   "property": "C64",
   "status": "partial",
   "theorems": [
    "C64_json_partial",
    "C64_json_refuted"
   ],
   "note": "Proved for global settings, intermediates and operators; refuted: workers and directions are lost and the result is never equal to an assignment with scans or joins."
  },
  {
   "property": "C65",
   "status": "partial",
   "theorems": [
    "C65_sorted_refuted",
    "C65_lower_refuted",
    "C65_zero_fails",
    "C65_rows_refuted",
    "C65_histogram_partial",
    "C65_total_partial"
   ],
   "note": "Refuted: common values are merged by frequency, so bounds may be unsorted; a bound of 0 is skipped as lower bound (and a column of only zeros fails); frequencies add up to more than the rows. Partial: with ascending common values bounds are strictly ascending, complete and frequencies add up; never fails if the first bound is not 0."
  },
  {
   "property": "C66",
   "status": "partial",
   "theorems": [
    "C66_complete_partial",
    "C66_exact",
    "C66_disconnected",
    "C66_linear_refuted",
    "C66_linear_complete_partial"
   ],
   "note": "Bushy: complete up to hash collisions (trees are deduplicated by hash), exact if there are none; disconnected graphs rejected. Refuted for left-deep and right-deep trees: all_join_orders_for is a generator function that returns the linear generator instead of yielding from it. The unused linear enumerator is complete."
  },
  {
   "property": "C67",
   "status": "partial",
   "theorems": [
    "C67_equi",
    "C67_inner_sound",
    "C67_inner_refuted",
    "C67_inner_reports",
    "C67_inner_function_refuted"
   ],
   "note": "Equi-join check proved in both directions. Inner join check: soundness proved; refuted in the other direction since the join type (an enum member) is compared with the string INNER, so every explicit join is rejected; table functions raise ValueError."
  },
  {
   "property": "C68",
   "status": "partial",
   "theorems": [
    "C68_integrated",
    "C68_incremental_partial",
    "C68_set_queries_refuted",
    "C68_textbook_partial",
    "C68_multi_partial",
    "C68_multi_refuted",
    "C68_multi_fresh"
   ],
   "note": "Proved for the integrated pipeline; the others are partial: set queries are never rejected by the incremental and textbook pipelines (ensure_all_passed ignores contexts that are no SqlQuery), and the multi-stage pipeline accumulates the checks of replaced components."
  },
  {
   "property": "C69",
   "status": "partial",
   "theorems": [
    "C69_progressive_partial",
    "C69_no_failures_partial",
    "C69_callback",
    "C69_execution_refuted",
    "C69_optimization_refuted"
   ],
   "note": "Callback part proved. Progressive output: proved to be the returned rows without failed executions, as long as optimizations succeed or reps = 1; equal to the returned rows if nothing fails. Refuted in general: failed executions are never written, failed optimizations are written once instead of once per repetition."
  },
  {
   "property": "C70",
   "status": "partial",
   "theorems": [
    "C70_root_partial",
    "C70_tree_partial",
    "C70_tree_refuted"
   ],
   "note": "Refuted: directory names and the prefix never reach the labels, files of the same name in different directories overwrite each other. Proved: a flat directory is read as documented; a tree with distinct file names is read completely, under bare names."
  },
  {
   "property": "C71",
   "status": "partial",
   "theorems": [
    "C71_wrap_partial",
    "C71_wrap_refuted"
   ],
   "note": "Proved for lists without repetitions; refuted for lists that contain a query twice (only the last position is kept)."
  },
  {
   "property": "C72",
   "status": "partial",
   "theorems": [
    "C72_shapes",
    "C72_injective_partial",
    "C72_arrays_refuted"
   ],
   "note": "The shape part is proved for all result sets. Injectivity holds for result sets without arrays; with arrays it is refuted ([([1,2],)] and [(1,),(2,)] both become [1,2])."
  },
  {
   "property": "C73",
   "status": "partial",
   "theorems": [
    "C73_succeeds_partial",
    "C73_order_partial",
    "C73_key_refuted",
    "C73_order_refuted"
   ],
   "note": "Success is proved if every join predicate is a pair of columns of the graph; refuted for join predicates with more than two columns (KeyError). Order independence is proved for one join partner and refuted for two foreign keys into joined tables."
  },
  {
   "property": "C74",
   "status": "partial",
   "theorems": [
    "C74_update_partial",
    "C74_refuted"
   ],
   "note": "Proved for the columns of the join condition and for columns joined inside the intermediate result, with integer frequencies. Refuted for the columns needed for later joins: their frequencies are never updated, so the next bound may be too small (3 instead of 6)."
  },
  {
   "property": "C75",
   "status": "partial",
   "theorems": [
    "C75_integrate_partial",
    "C75_integrate_refuted",
    "C75_recommend_partial",
    "C75_recommend_refuted",
    "C75_right_deep_refuted",
    "C75_alias_refuted"
   ],
   "note": "Proved for linear plans without auxiliary nodes (integrate_costs) and left-deep join orders (recommend_operators, all joins but the last). Refuted: the last join never gets a recommendation; right-deep orders look at the wrong table or fail; aliases are dropped from the assignment's tables; joins below a shallow branch are lost when the other branch has auxiliary nodes. Bushy plans are modelled but only covered by the refutations."
  },
  {
   "property": "C76",
   "status": "partial",
   "theorems": [
    "C76_refuted"
   ],
   "note": "Refuted for every left-deep join order: TypeError for three or more tables, empty result for two."
  },
  {
   "property": "C77",
   "status": "partial",
   "theorems": [
    "C77_refuted",
    "C77_partial",
    "C77_json_determines",
    "C77_no_silent_loss_partial"
   ],
   "note": "Refuted for every QEP-S."
  },
  {
   "property": "C78",
   "status": "partial",
   "theorems": [
    "C78_column_never_found_refuted",
    "C78_sorted_path_not_recognised_refuted",
    "C78_compatible_keys_order_alike_partial",
    "C78_compatible_reflexive_symmetric",
    "C78_compatible_not_transitive_refuted",
    "C78_merge",
    "C78_equal_keys_interchangeable",
    "C78_single_column"
   ],
   "note": "False: ColumnReferences are looked up among ColumnExpressions, so a column is never found and no path is ever recognised as sorted; compatibility is not transitive. Proved: compatible keys order rows alike, reflexive and symmetric, merging, equality."
  },
  {
   "property": "C79",
   "status": "partial",
   "theorems": [
    "C79_as_explain",
    "C79_as_explain_idempotent",
    "C79_with_select_partial",
    "C79_star_of_set_query_refuted",
    "C79_drop_hints",
    "C79_drop_hints_unhinted"
   ],
   "note": "Refuted only for as_star_query on set queries, where a ValueError is raised."
  },
  {
   "property": "C80",
   "status": "partial",
   "theorems": [
    "C80_equality_reflexive_symmetric",
    "C80_equal_hash_partial",
    "C80_equal_identical_partial",
    "C80_fetch_direction_refuted",
    "C80_explain_format_refuted",
    "C80_cte_name_refuted",
    "C80_lateral_refuted",
    "C80_materialized_ignored_refuted",
    "C80_except_intersect_refuted"
   ],
   "note": "Reflexive and symmetric for all objects; equal hash values for objects with default fetch directions, non-empty EXPLAIN formats, CTEs named by strings and without LATERAL, identity if MATERIALIZED is absent as well. Each exception is refuted by a witness; EXCEPT and INTERSECT clauses raise an AttributeError when compared."
  },
  {
   "property": "C81",
   "status": "partial",
   "theorems": [
    "C81_iternodes",
    "C81_iteration",
    "C81_iternodes_length",
    "C81_depth",
    "C81_tables",
    "C81_lookup_partial",
    "C81_find_first_partial",
    "C81_find_first_subplan_refuted",
    "C81_find_first_many_children_refuted",
    "C81_subplans_refuted"
   ],
   "note": "Traversals, depth and tables hold for all plans. lookup and iternodes ignore subplans (refuted for them); find_first_node skips subplans below nodes with fewer than two children and raises AttributeError for nodes with three or more children (refuted); proved complete for plans with at most two children per node and subplans only below binary nodes."
  },
  {
   "property": "C82",
   "status": "partial",
   "theorems": [
    "C82_bushy_not_linear",
    "C82_shapes_partial",
    "C82_root_only",
    "C82_linear_refuted",
    "C82_zigzag_refuted",
    "C82_auxiliary_root_refuted"
   ],
   "note": "False in general: only the topmost join is inspected (C82_root_only gives the exact meaning), so bushy plans joined with a base table count as linear and left-deep, no plan with joins is ever zig-zag, and plans with an auxiliary root raise AttributeError. Proved: plans of a shape are recognised (negative answers are right)."
  },
  {
   "property": "C83",
   "status": "partial",
   "theorems": [
    "C83_canonical_partial",
    "C83_total",
    "C83_canonical_refuted"
   ],
   "note": "Proved for all plans with a canonical form (and that it exists if auxiliary nodes have one child). Refuted: Append/Result nodes raise AttributeError, subplans of auxiliary nodes are lost."
  },
  {
   "property": "C84",
   "status": "partial",
   "theorems": [
    "C84_equivalence",
    "C84_hash",
    "C84_same_order_partial",
    "C84_equal_tables_refuted"
   ],
   "note": "Equivalence and hash consistency hold for all plans. Same join order only if the node type determines the operator; equal plans may have different tables (subplans and filters are not compared)."
  },
  {
   "property": "C85",
   "status": "partial",
   "theorems": [
    "C85_with_actual",
    "C85_scale_partial",
    "C85_root_changes_partial",
    "C85_losses_refuted"
   ],
   "note": "with_actual_card proved in full. Refuted: scaling actual cardinalities drops cache statistics, non-recursive scaling still scales subplans, with_estimates drops additional estimates."
  },
  {
   "property": "C86",
   "status": "partial",
   "theorems": [
    "C86_cout_partial",
    "C86_qerror_partial",
    "C86_qerror_rounded_refuted",
    "C86_not_executed"
   ],
   "note": "cout proved for executed plans whose sum is below 2^53. q-error is computed with Cardinality operands and therefore rounded to an integer: between the floor and the floor plus one of the exact value, 1 for some wrong estimates (refuted)."
  },
  {
   "property": "C87",
   "status": "partial",
   "theorems": [
    "C87_join_tree",
    "C87_logical_refuted",
    "C87_operators",
    "C87_operators_defined",
    "C87_operators_partial",
    "C87_parameters",
    "C87_parameters_partial",
    "C87_target_cardinality",
    "C87_index_lookup_refuted",
    "C87_workers_refuted",
    "C87_explode_refuted"
   ],
   "note": "Join trees and the exact contents of assignments and parameters are proved (the last node from the root downwards wins). Refuted: conditions of index lookups make an inner join count as a join of more tables, so that operator and cardinality of the outer join are overwritten; include_workers only covers the root; explode_query_plan passes 'estimated' where 'estimates' is expected and annotates actual cardinalities; the tree is never a LogicalJoinTree."
  },
  {
   "property": "C88",
   "status": "partial",
   "theorems": [
    "C88_simple_partial",
    "C88_tables_refuted",
    "C88_custom_join_refuted",
    "C88_custom_scan_refuted",
    "C88_update_refuted"
   ],
   "note": "Shape, operators and cardinalities with default operators proved. Refuted: base tables are never set (no tables, no join order), every join with an operator assignment raises, scan assignments are ignored, update_plan always raises."
  },
  {
   "property": "C89",
   "status": "partial",
   "theorems": [
    "C89_json_partial",
    "C89_json_errors_refuted",
    "C89_lookup_key_refuted",
    "C89_large_cardinality_refuted"
   ],
   "note": "Round trip proved for plans without sort keys, lookup keys and subplans and with cardinalities below 2^53; refuted for each of these. Predicates and tables are assumed to be read back unchanged."
  },
  {
   "property": "C90",
   "status": "partial",
   "theorems": [
    "C90_tables",
    "C90_item",
    "C90_contains_refuted",
    "C90_shadowed_refuted"
   ],
   "note": "Tables and reading proved. Refuted: names are treated as collections of tables, so membership is always false; the actual cardinality is shadowed by the estimated one."
  },
  {
   "property": "C91",
   "status": "partial",
   "theorems": [
    "C91_parse_relalg_partial",
    "C91_translation_partial",
    "C91_translation_star_partial",
    "C91_order",
    "C91_having_dropped_refuted",
    "C91_constant_dropped_refuted",
    "C91_distinct_refuted",
    "C91_limit_refuted"
   ],
   "note": "Proved for queries without subqueries that name each table once, whose WHERE conditions use columns and no aggregates, whose HAVING conditions use aggregates and columns of none or several tables, without DISTINCT and LIMIT; for all interpretations, databases and iteration orders, both for the tree itself and for the copy that parse_relalg returns. Refuted beyond: HAVING conditions about one table and constant conditions disappear, DISTINCT and LIMIT are ignored."
  },
  {
   "property": "C92",
   "status": "partial",
   "theorems": [
    "C92_parse_relalg_partial",
    "C92_translatable_partial",
    "C92_constant_refuted",
    "C92_no_arguments_refuted",
    "C92_order_refuted"
   ],
   "note": "Proved, including the final copy, for queries whose WHERE conditions are base table conditions, joins with one table per side, or other conditions with columns. Refuted: constant conditions, functions without arguments; joins with two tables on a side succeed or fail depending on set iteration order."
  },
  {
   "property": "C93",
   "status": "partial",
   "theorems": [
    "C93_parse_relalg_partial",
    "C93_available_partial",
    "C93_order_refuted",
    "C93_order_aggregate_refuted",
    "C93_group_refuted"
   ],
   "note": "Proved, including the final copy, for queries that group by columns, do not nest aggregates, only use group columns and aggregates after grouping and only order by literals, columns or selected aggregates. Refuted: ORDER BY and GROUP BY expressions and unselected aggregates in ORDER BY are never computed."
  },
  {
   "property": "C94",
   "status": "partial",
   "theorems": [
    "C94_parse_relalg_partial",
    "C94_same_table_refuted",
    "C94_set_queries_partial",
    "C94_set_queries_refuted"
   ],
   "note": "Proved when the tables of the first query are among those of the second one. Refuted otherwise: the parser keeps the fragments of the first side and cross-joins them into the second one. The final copy may fail with an AssertionError since leaves are kept in a set in which relations of the same table are equal (refuted with SELECT R.a FROM R UNION SELECT R.b FROM R); if it succeeds the result is right."
  },
  {
   "property": "C95",
   "status": "partial",
   "theorems": [
    "C95_mutate_partial",
    "C95_as_root_partial",
    "C95_copy",
    "C95_equal_nodes_refuted",
    "C95_same_table_refuted"
   ],
   "note": "Proved for trees in which each table occurs once and without subquery inputs; copies without changes are equal to the original in any tree. Refuted: equal nodes in other places change as well; trees with a table in several places may fail with an AssertionError."
  },
  {
   "property": "C96",
   "status": "partial",
   "theorems": [
    "C96_equivalence",
    "C96_equal_meaning",
    "C96_hash_partial",
    "C96_hash_refuted",
    "C96_leaf_partial",
    "C96_leaf_refuted"
   ],
   "note": "Equality is an equivalence relation and equal nodes produce the same rows. Hash values are right after construction, after a copy and after a change of the root; refuted for changes further down, as _rehash works from the root and reads the old hash values of the inputs. leaf() is right if the leaf is the node itself or its input; refuted otherwise, since it does not recurse."
  },
  {
   "property": "C97",
   "status": "partial",
   "theorems": [
    "C97_binding_partial",
    "C97_self_join_refuted",
    "C97_alias_hides_column_refuted",
    "C97_outer_column_refuted",
    "C97_cte_alias_refuted",
    "C97_cte_hides_table_refuted",
    "C97_column_names_refuted",
    "C97_function_refuted",
    "C97_anonymous_subquery_refuted",
    "C97_join_condition_refuted",
    "C97_order_by_refuted",
    "C97_star_columns_refuted"
   ],
   "note": "Proved for all queries in which each name stands for one table throughout (plain_names: CTEs used without alias, subqueries with alias and without column list, no functions in FROM, unqualified columns belong to exactly one table of their own FROM clause). Refuted outside: R.a in FROM R, R AS s is bound to s; an alias of the SELECT clause hides the column of the same name in WHERE; unqualified columns of the outer query and columns of a CTE with alias are not bound; a CTE named like the table it reads refers to itself; column names of t(x) are dropped; functions with alias and subqueries without alias cannot be parsed; ON conditions and ORDER BY take the first table of the FROM clause; * over x AS y gives the columns of the CTE y."
  },
  {
   "property": "C98",
   "status": "proved",
   "theorems": [
    "C98_cache_transparent",
    "C98_cache_transparent_nested"
   ],
   "note": "Proved without restriction for the modelled part of the parser."
  },
  {
   "property": "C99",
   "status": "partial",
   "theorems": [
    "C99_all_intermediates",
    "C99_connected_intermediates_partial",
    "C99_base_tables_refuted",
    "C99_estimates",
    "C99_join_order"
   ],
   "note": "Proved for all queries in which each table occurs in some predicate (and without this restriction for allow_cross_products). Refuted: a table that no predicate mentions gets no estimate, and a query without predicates gets none at all. Not modelled: the interleaving of enumeration and estimation."
  },
  {
   "property": "C100",
   "status": "partial",
   "theorems": [
    "C100_count_partial",
    "C100_clauses_refuted",
    "C100_current_partial",
    "C100_outdated",
    "C100_disabled_cache_refuted"
   ],
   "note": "Counting is proved for fragments without GROUP BY, HAVING and ORDER BY; refuted for these clauses, which are kept in the count query. The cache answers are proved to be current if the cache is reset after each change of the data, and to have been right at some time in any case; refuted: enable_cache=False does not disable the cache."
  },
  {
   "property": "C101",
   "status": "partial",
   "theorems": [
    "C101_lookup",
    "C101_default",
    "C101_live",
    "C101_missing_refuted",
    "C101_saved_twice_refuted",
    "C101_saved_file_refuted",
    "C101_saved_partial"
   ],
   "note": "Lookup, default and live answers are proved. Refuted: error_on_missing_card has no effect; saved answers are not found again in the same session (text instead of set), so rows are added repeatedly and later reported as ambiguous; a file that had rows before cannot be read after saving. Proved: a new file to which each result is added once."
  },
  {
   "property": "C102",
   "status": "partial",
   "theorems": [
    "C102_fixed_partial",
    "C102_random_partial",
    "C102_unknown",
    "C102_neutral_refuted"
   ],
   "note": "Proved for estimates and products below 2^53 (the bounds are the integers around the exact product). Refuted: factor 1 changes 2^53+1 and turns infinite estimates into unknown ones."
  },
  {
   "property": "C103",
   "status": "partial",
   "theorems": [
    "C103_tables",
    "C103_auxiliary",
    "C103_differences_partial",
    "C103_scans_partial",
    "C103_identical_refuted",
    "C103_unknown_refuted",
    "C103_cost_refuted"
   ],
   "note": "Proved: plans over different tables give exactly one entry; auxiliary nodes are rejected; if the inputs of all corresponding joins are swapped (and for scans), exactly the differences are reported. Refuted: every plan with a join is reported to differ from itself (the outer input of the left plan is compared with the inner input of the right one); an estimate only one plan has raises StateError; a cost only the right plan has is not reported."
  },
  {
   "property": "C104",
   "status": "partial",
   "theorems": [
    "C104_join_depth_refuted",
    "C104_join_depth_partial"
   ],
   "note": "Refuted for every tree with a join: join_depth raises TypeError because the check for joins is inverted. Proved for empty trees and scans."
  },
  {
   "property": "C105",
   "status": "partial",
   "theorems": [
    "C105_bottomup",
    "C105_bottomup_one",
    "C105_topdown_partial",
    "C105_topdown_refuted"
   ],
   "note": "Bottom-up score: range, symmetry, division by zero exactly without any join, and the characterisation of score 1 are proved. Top-down score: defined, symmetric and non-negative for all trees without empty parts; the range [0, 1] is refuted for every tree with a join compared to itself when gamma >= 1 (default 1.1). Scores are exact rationals in the model."
  },
  {
   "property": "C106",
   "status": "partial",
   "theorems": [
    "C106_catalan_partial",
    "C106_catalan_refuted",
    "C106_single_refuted",
    "C106_three_refuted"
   ],
   "note": "catalan_number is proved exact for Catalan numbers below 2^53 and refuted at n = 31 (float division). possible_plans_bound is refuted: 0 for a single table, 180 for three tables with the default operators although 432 left-deep plans exist."
  },
  {
   "property": "C107",
   "status": "partial",
   "theorems": [
    "C107_star_partial",
    "C107_single_refuted",
    "C107_key_refuted"
   ],
   "note": "Proved for unique keys, any number of dimensions and any order of the groups, except for a fact table with exactly one row after filtering, for which TypeError is raised (refuted, the single result row is unwrapped). Not modelled: building the SQL texts."
  },
  {
   "property": "C108",
   "status": "partial",
   "theorems": [
    "C108_rename_table_partial",
    "C108_no_old_reference_partial",
    "C108_absent_table_partial",
    "C108_order_by_refuted",
    "C108_set_query_refuted",
    "C108_dictionary_refuted",
    "C108_several_tables_refuted",
    "C108_from_subquery_refuted",
    "C108_same_alias_refuted",
    "C108_captured_name_refuted",
    "C108_distinct_on_refuted",
    "C108_filter_refuted",
    "C108_quantifier_refuted"
   ],
   "note": "Positive for queries without the unsupported parts listed in ok_q (RTab_spec.v): the result is the substitution. Refuted otherwise: every query with ORDER BY or a set operation is rejected, dictionaries of renamings unbind the columns and may drop FROM items, DISTINCT ON is not renamed, FILTER is dropped, quantified expressions are rebuilt with exchanged arguments, FROM subqueries that use columns of the table are rejected, tables in explicit joins cannot keep their alias."
  },
  {
   "property": "C109",
   "status": "partial",
   "theorems": [
    "C109_merge_tables_partial",
    "C109_any_order_partial",
    "C109_from_clause_partial",
    "C109_explicit_join_refuted"
   ],
   "note": "Positive for queries whose FROM clauses are comma separated (also in subqueries). Refuted for explicit joins."
  },
  {
   "property": "C110",
   "status": "proved",
   "theorems": [
    "C110_missing_features",
    "C110_satisfies_iff",
    "C110_contains_violations",
    "C110_provides_iff",
    "C110_preorder",
    "C110_equality"
   ],
   "note": "All parts proved for all feature lists."
  },
  {
   "property": "C111",
   "status": "partial",
   "theorems": [
    "C111_conform_to",
    "C111_as_df_partial",
    "C111_as_df_rejects",
    "C111_merge_with_partial",
    "C111_merge_with_rejects",
    "C111_from_df",
    "C111_as_df_refuted",
    "C111_as_df_spec_refuted",
    "C111_merge_with_refuted"
   ],
   "note": "conform_to, from_df and the error cases are proved. as_df is proved for features stored in columns of the same name; in general it renames in the wrong direction (feature to column), so the columns are not called like the features (refuted). merge_with is proved for data sets with the same column names; otherwise values become NaN (refuted)."
  },
  {
   "property": "C112",
   "status": "partial",
   "theorems": [
    "C112_retrieve_all",
    "C112_retrieve_first",
    "C112_retrieve_merged_partial",
    "C112_retrieve_merged_none",
    "C112_single_refuted",
    "C112_merge_refuted"
   ],
   "note": "retrieve all/first and None proved in full; merge is proved when the later data sets have all features of the first one. Refuted: matching data sets raise a ValueError when the first one has further features, and a single match is not conformed."
  },
  {
   "property": "C113",
   "status": "partial",
   "theorems": [
    "C113_complete_classes",
    "C113_incomplete_classes",
    "C113_train",
    "C113_nothing_to_do",
    "C113_missing_samples",
    "C113_metrics_refuted"
   ],
   "note": "Proved for all pipelines, fit functions and states; refuted for metrics: stages with the same name overwrite each other's metrics."
  },
  {
   "property": "C114",
   "status": "partial",
   "theorems": [
    "C114_sound",
    "C114_found_partial",
    "C114_disconnected_partial",
    "C114_infinite_refuted"
   ],
   "note": "Soundness is proved outright. A plan is found if operators with finitely expensive inputs are finitely expensive, pages are known, NLJ or hash joins are allowed and predicates have no two pairs of join partners while merge joins are allowed; disconnected queries then raise an AssertionError. Refuted in general: a subset of the tables with only infinitely expensive plans makes the search fail although another join order has finite cost. The cost model of PostgreSQL itself (which prices whole plans with EXPLAIN) is not modelled."
  },
  {
   "property": "C115",
   "status": "partial",
   "theorems": [
    "C115_cheapest_partial",
    "C115_almost_partial",
    "C115_fuzz_refuted",
    "C115_workers_refuted"
   ],
   "note": "Proved for all join graphs: without index scans the plan is the cheapest one; with them it is within 1.01*1.01 of it. Refuted: exact optimality with index scans (fuzzy pruning), and optimality for cost models in which the benefit of parallel execution depends on the number of workers (partial paths are pruned without looking at it)."
  },
  {
   "property": "C116",
   "status": "partial",
   "theorems": [
    "C116_operators",
    "C116_merge_refuted",
    "C116_choice_partial",
    "C116_nested_refuted",
    "C116_empty_table_refuted",
    "C116_two_partners_refuted",
    "C116_choice_refuted"
   ],
   "note": "Operators and the choice of the cheapest final candidate (if no two candidates are equal as plans) are proved. Refuted: merge joins only gives no plan, parallel subplans below parallel plans, empty tables."
  },
  {
   "property": "C117",
   "status": "partial",
   "theorems": [
    "C117_sound",
    "C117_complete_partial",
    "C117_references_partial",
    "C117_unnamed_refuted",
    "C117_function_refuted",
    "C117_on_refuted",
    "C117_set_refuted",
    "C117_distinct_refuted"
   ],
   "note": "Soundness is proved for all queries, completeness if nothing is mentioned only in the places that are skipped. Refuted for unaliased derived tables (None in the result), unaliased table functions, subqueries in join conditions, CTEs and ORDER BY of set queries and DISTINCT ON."
  },
  {
   "property": "C118",
   "status": "partial",
   "theorems": [
    "C118_sound_partial",
    "C118_complete_partial",
    "C118_iter_partial",
    "C118_subset",
    "C118_set_refuted",
    "C118_values_refuted",
    "C118_distinct_refuted"
   ],
   "note": "columns() is contained in itercolumns() for all queries; both are exact if no VALUES CTE occurs and the skipped places mention nothing new. Refuted for ORDER BY of set queries, VALUES CTEs (a column reference within a column reference) and DISTINCT ON."
  },
  {
   "property": "C119",
   "status": "partial",
   "theorems": [
    "C119_sound",
    "C119_complete_partial",
    "C119_joins_refuted",
    "C119_function_refuted",
    "C119_set_refuted"
   ],
   "note": "Soundness is proved for all queries, completeness for queries without explicit joins and without subqueries in the skipped places. Refuted: every explicit join raises a TypeError; subqueries in table functions and in ORDER BY of set queries are missed."
  },
  {
   "property": "C120",
   "status": "partial",
   "theorems": [
    "C120_bound_partial",
    "C120_unbound_partial",
    "C120_dependent_partial",
    "C120_derived_refuted",
    "C120_nested_refuted",
    "C120_scope_refuted",
    "C120_joins_refuted",
    "C120_nofrom_refuted",
    "C120_values_refuted",
    "C120_partition_refuted",
    "C120_disjoint"
   ],
   "note": "Disjointness is proved for all SELECT queries. The other claims hold for queries over database tables with subqueries in expressions, if no free table is also scanned inside. Refuted: explicit joins, VALUES and subqueries without FROM raise; derived tables make a query dependent; a table scanned in a subquery hides a free one; tables() is not the union."
  },
  {
   "property": "C121",
   "status": "partial",
   "theorems": [
    "C121_conjunction",
    "C121_when_partial",
    "C121_nofrom_refuted",
    "C121_union_refuted"
   ],
   "note": "Whenever predicates() returns, its result is equivalent to the conjunction of all conditions; it returns exactly for queries with a FROM clause everywhere and without set operations. Refuted for queries without FROM clause and with a set operation in FROM."
  },
  {
   "property": "C122",
   "status": "partial",
   "theorems": [
    "C122_names_partial",
    "C122_select_partial",
    "C122_prefix_refuted",
    "C122_clash_refuted"
   ],
   "note": "Proved for queries without star whose own names do not start with column_. Refuted for such names: the name of the left-hand side is lost, or two columns have the same name."
  },
  {
   "property": "C123",
   "status": "partial",
   "theorems": [
    "C123_scalar_partial",
    "C123_having_refuted"
   ],
   "note": "Proved without HAVING, refuted with it. LIMIT and OFFSET are not modelled."
  },
  {
   "property": "C124",
   "status": "partial",
   "theorems": [
    "C124_str_partial",
    "C124_quick_partial",
    "C124_cross_refuted",
    "C124_quick_refuted",
    "C124_natural_refuted",
    "C124_condition_refuted",
    "C124_constructor"
   ],
   "note": "Proved for joins whose CROSS JOINs have no (unparenthesised) join on the right. Refuted: CROSS JOIN with an outer join on its right is read as a different join with a different result by str() and in some cases by format_quick(); natural joins become cross joins; conditions of CROSS/NATURAL joins are lost by str() and make the text of format_quick() unreadable. The grammar of SQL is stated separately and proved unambiguous."
  },
  {
   "property": "C125",
   "status": "partial",
   "theorems": [
    "C125_quick",
    "C125_quick_explain",
    "C125_str_partial",
    "C125_nested_refuted",
    "C125_precedence_refuted",
    "C125_order_refuted",
    "C125_explain_refuted",
    "C125_parts_refuted"
   ],
   "note": "format_quick() is proved for all set queries. str() is proved for trees without parentheses and ORDER BY/LIMIT; refuted for nested EXCEPT, UNION below INTERSECT, every set query with ORDER BY, LIMIT or EXPLAIN, and parts with ORDER BY, LIMIT or WITH."
  },
  {
   "property": "C126",
   "status": "partial",
   "theorems": [
    "C126_mirrors_partial",
    "C126_tables_partial",
    "C126_no_new_tables",
    "C126_total",
    "C126_errors",
    "C126_several_subplans_refuted",
    "C126_names_lost",
    "C126_subplan_name_refuted"
   ],
   "note": "Proved for nodes with at most one subplan each (C126_mirrors_partial, C126_tables_partial); nothing is invented and failure is characterised for all trees. Refuted: of several subplans of a node only the last one is kept; the name of a subplan or CTE is passed under a wrong keyword and is never the target of the subplan."
  },
  {
   "property": "C127",
   "status": "partial",
   "theorems": [
    "C127_estimates_partial",
    "C127_init_plan_refuted"
   ],
   "note": "Proved unless an initial plan is below a node with workers; refuted there: it is executed once but scaled by the number of processes. Row counts are exact integers."
  },
  {
   "property": "C128",
   "status": "partial",
   "theorems": [
    "C128_equivalence",
    "C128_hash_partial",
    "C128_same_tables",
    "C128_hash_refuted",
    "C128_same_plan_refuted",
    "C128_inputs_partial",
    "C128_other_counts",
    "C128_inputs_refuted"
   ],
   "note": "Equality is an equivalence, equal nodes read the same tables, equal hash data implies equality. Refuted: equal nodes with different hash values (filters), equal nodes with different plans (roles of the children), a self join whose inner input is given twice."
  },
  {
   "property": "C129",
   "status": "partial",
   "theorems": [
    "C129_sound",
    "C129_unique_partial",
    "C129_choice",
    "C129_no_filter_partial",
    "C129_unfiltered_refuted"
   ],
   "note": "Soundness, unique relations and the choice by similarity (exact characterisation) are proved. Refuted: an unfiltered scan of a relation that occurs several times is never bound, even if only one occurrence has no filter. The factor 0.99 is exact; ASCII texts."
  },
  {
   "property": "C130",
   "status": "partial",
   "theorems": [
    "C130_plan_partial",
    "C130_total",
    "C130_joins_refuted"
   ],
   "note": "The mirror is proved with operators for hash joins and sequential or index scans. Refuted: other joins (nested loop, merge, cross product) are not joins of the plan."
  },
  {
   "property": "C131",
   "status": "partial",
   "theorems": [
    "C131_lines_partial",
    "C131_supported",
    "C131_plans",
    "C131_no_block_partial",
    "C131_empty_block_refuted",
    "C131_settings_refuted"
   ],
   "note": "Requests and lines correspond, errors are characterised. Refuted: parameters without any valid cardinality still give a block with an empty line; statements of system settings lack SET. The conversion of LIMIT is left out."
  },
  {
   "property": "C132",
   "status": "partial",
   "theorems": [
    "C132_plan_partial",
    "C132_sound",
    "C132_lookup_partial",
    "C132_order_partial",
    "C132_names_refuted",
    "C132_materialized_refuted",
    "C132_first_operator_refuted",
    "C132_lists_refuted",
    "C132_zero_refuted",
    "C132_const_refuted",
    "C132_parse_plan_refuted"
   ],
   "note": "Proved for documents whose nested loops consist of plain tables, with wrapper operations above and materialised subqueries at the tables; every scan of a plan comes from a table entry. Refuted: ambiguous names (the last table wins), the names of materialised tables (KeyError), several known operators in one object (only the first is read), subqueries in lists (AssertionError), costs of zero (dropped), tables of constants, and parse_plan with subqueries. JSON numbers and float arithmetic are parameters."
  },
  {
   "property": "C133",
   "status": "partial",
   "theorems": [
    "C133_lines_partial",
    "C133_supported",
    "C133_order_partial",
    "C133_supports",
    "C133_plan_parts",
    "C133_right_deep_refuted",
    "C133_bushy_refuted",
    "C133_settings_refuted",
    "C133_contradiction_refuted",
    "C133_supports_refuted",
    "C133_quotes_refuted"
   ],
   "note": "Lines and requests correspond; errors are characterised; for left-deep trees the hint lists the tables one by one. Refuted: right-deep trees get the hint of another tree, bushy trees below the root and of plans are accepted, settings are lost without other hints, contradictory hints for joins that share tables, hints for operators that supports_hint() denies, quotes in settings."
  },
  {
   "property": "C134",
   "status": "partial",
   "theorems": [
    "C134_snake",
    "C134_injective",
    "C134_config_partial",
    "C134_missing",
    "C134_autocommit_refuted"
   ],
   "note": "Proved for files without AutoCommit; that option is converted to auto_commit and always fails (C134_autocommit_refuted). Conversion of names: independent description, injective on capitalised names without underscores."
  },
  {
   "property": "C135",
   "status": "proved",
   "theorems": [
    "C01_split_stronger",
    "C01_joins_join",
    "C01_filters_no_join",
    "C01_comparison_filter_one_table"
   ],
   "note": ""
  },
  {
   "property": "C136",
   "status": "proved",
   "theorems": [
    "C06_equivalence",
    "C06_meaning"
   ],
   "note": ""
  },
  {
   "property": "C137",
   "status": "proved",
   "theorems": [
    "C09_connectivity",
    "C09_singleton",
    "C08_symmetric"
   ],
   "note": ""
  },
  {
   "property": "C138",
   "status": "proved",
   "theorems": [
    "C11_classes",
    "C11_all_equalities"
   ],
   "note": ""
  },
  {
   "property": "C139",
   "status": "proved",
   "theorems": [
    "C12_tables"
   ],
   "note": ""
  },
  {
   "property": "C140",
   "status": "proved",
   "theorems": [
    "C16_equality",
    "C16_built_fits",
    "C16_drop_clause",
    "C16_drop_required_raises",
    "C16_replace_clause",
    "C16_replace_order_irrelevant",
    "C16_add_mixing_raises"
   ],
   "note": ""
  },
  {
   "property": "C141",
   "status": "proved",
   "theorems": [
    "C17_generic_text"
   ],
   "note": ""
  },
  {
   "property": "C142",
   "status": "proved",
   "theorems": [
    "C19_quote_characterization",
    "C19_quote_injective"
   ],
   "note": ""
  },
  {
   "property": "C143",
   "status": "proved",
   "theorems": [
    "C21_complete",
    "C21_disconnected",
    "C20_order_independent",
    "C20_setting"
   ],
   "note": ""
  },
  {
   "property": "C144",
   "status": "proved",
   "theorems": [
    "C22_pk_fk"
   ],
   "note": ""
  },
  {
   "property": "C145",
   "status": "proved",
   "theorems": [
    "C23_bushy",
    "C23_base_table",
    "C23_linear"
   ],
   "note": ""
  },
  {
   "property": "C146",
   "status": "proved",
   "theorems": [
    "C29_merge",
    "C29_merge_get",
    "C29_wf",
    "C29_errors",
    "C29_global",
    "C29_intermediates",
    "C29_global_only",
    "C29_independent"
   ],
   "note": ""
  },
  {
   "property": "C147",
   "status": "proved",
   "theorems": [
    "C30_setters",
    "C30_drop_workers"
   ],
   "note": ""
  },
  {
   "property": "C148",
   "status": "proved",
   "theorems": [
    "C31_pglab_only_assigned",
    "C31_pglab_total",
    "C31_pglab_unsupported"
   ],
   "note": ""
  },
  {
   "property": "C149",
   "status": "proved",
   "theorems": [
    "C32_below_range",
    "C32_below_monotone",
    "C32_extremes"
   ],
   "note": ""
  },
  {
   "property": "C150",
   "status": "proved",
   "theorems": [
    "C35_kept_were_offered",
    "C35_subsumption_is_sound",
    "C35_cheapest_is_minimal"
   ],
   "note": ""
  },
  {
   "property": "C151",
   "status": "proved",
   "theorems": [
    "C36_eq_same",
    "C36_eq_raises",
    "C36_min",
    "C37_hash",
    "C37_hash_distinct",
    "C37_division",
    "C37_remainder",
    "C37_remainder_special"
   ],
   "note": ""
  },
  {
   "property": "C152",
   "status": "proved",
   "theorems": [
    "C38_sized_queue_most_recent",
    "C38_sized_queue_capacity"
   ],
   "note": ""
  },
  {
   "property": "C153",
   "status": "proved",
   "theorems": [
    "C40_no_lost_update",
    "C40_linearizable"
   ],
   "note": ""
  },
  {
   "property": "C154",
   "status": "proved",
   "theorems": [
    "C44_merge_default",
    "C44_merge_updater",
    "C44_intersection",
    "C44_difference",
    "C44_generate_multi",
    "C44_aggregate",
    "C44_argmin",
    "C44_argmax"
   ],
   "note": ""
  },
  {
   "property": "C155",
   "status": "proved",
   "theorems": [
    "C45_compound_query",
    "C45_compound_reasons"
   ],
   "note": ""
  },
  {
   "property": "C156",
   "status": "proved",
   "theorems": [
    "C46_incremental",
    "C46_textbook_rebuild",
    "C46_multi_rebuild",
    "C68_integrated"
   ],
   "note": ""
  },
  {
   "property": "C157",
   "status": "proved",
   "theorems": [
    "C49_agree",
    "C49_select",
    "C49_algebra",
    "C49_first",
    "C49_random"
   ],
   "note": ""
  },
  {
   "property": "C158",
   "status": "proved",
   "theorems": [
    "C52_result",
    "C52_timeout_sound",
    "C52_timeout_complete",
    "C52_error_sound",
    "C52_result_sound",
    "C52_protocol",
    "C52_traces"
   ],
   "note": ""
  },
  {
   "property": "C159",
   "status": "proved",
   "theorems": [
    "C56_random_walk",
    "C56_frontier_walks"
   ],
   "note": ""
  },
  {
   "property": "C160",
   "status": "proved",
   "theorems": [
    "C57_gone",
    "C57_absent",
    "C57_conjunct"
   ],
   "note": ""
  },
  {
   "property": "C161",
   "status": "proved",
   "theorems": [
    "C58_table_eq_hash",
    "C58_column_eq_hash",
    "C58_table_eq_spec",
    "C58_table_order",
    "C58_column_order_spec",
    "C58_column_order",
    "C58_drop_alias",
    "C58_make_virtual"
   ],
   "note": ""
  },
  {
   "property": "C162",
   "status": "proved",
   "theorems": [
    "C59_abbreviations"
   ],
   "note": ""
  },
  {
   "property": "C163",
   "status": "proved",
   "theorems": [
    "C62_constructors"
   ],
   "note": ""
  },
  {
   "property": "C164",
   "status": "proved",
   "theorems": [
    "C66_exact",
    "C66_disconnected"
   ],
   "note": ""
  },
  {
   "property": "C165",
   "status": "proved",
   "theorems": [
    "C67_equi",
    "C67_inner_sound",
    "C67_inner_reports"
   ],
   "note": ""
  },
  {
   "property": "C166",
   "status": "proved",
   "theorems": [
    "C72_shapes",
    "C51_single_column"
   ],
   "note": ""
  },
  {
   "property": "C167",
   "status": "proved",
   "theorems": [
    "C78_compatible_reflexive_symmetric",
    "C78_merge",
    "C78_equal_keys_interchangeable",
    "C78_single_column"
   ],
   "note": ""
  },
  {
   "property": "C168",
   "status": "proved",
   "theorems": [
    "C79_as_explain",
    "C79_as_explain_idempotent",
    "C79_drop_hints",
    "C79_drop_hints_unhinted"
   ],
   "note": ""
  },
  {
   "property": "C169",
   "status": "proved",
   "theorems": [
    "C81_iternodes",
    "C81_iteration",
    "C81_iternodes_length",
    "C81_depth",
    "C81_tables"
   ],
   "note": ""
  },
  {
   "property": "C170",
   "status": "proved",
   "theorems": [
    "C82_bushy_not_linear",
    "C82_root_only"
   ],
   "note": ""
  },
  {
   "property": "C171",
   "status": "proved",
   "theorems": [
    "C84_equivalence",
    "C84_hash",
    "C85_with_actual",
    "C83_total"
   ],
   "note": ""
  },
  {
   "property": "C172",
   "status": "proved",
   "theorems": [
    "C87_join_tree",
    "C87_operators",
    "C87_operators_defined",
    "C87_parameters",
    "C87_target_cardinality"
   ],
   "note": ""
  },
  {
   "property": "C173",
   "status": "proved",
   "theorems": [
    "C90_tables",
    "C90_item"
   ],
   "note": ""
  },
  {
   "property": "C174",
   "status": "proved",
   "theorems": [
    "C96_equivalence",
    "C96_equal_meaning",
    "C95_copy",
    "C91_order"
   ],
   "note": ""
  },
  {
   "property": "C175",
   "status": "proved",
   "theorems": [
    "C99_all_intermediates",
    "C99_estimates",
    "C99_join_order"
   ],
   "note": ""
  },
  {
   "property": "C176",
   "status": "proved",
   "theorems": [
    "C101_lookup",
    "C101_default",
    "C101_live"
   ],
   "note": ""
  },
  {
   "property": "C177",
   "status": "proved",
   "theorems": [
    "C105_bottomup",
    "C105_bottomup_one"
   ],
   "note": ""
  },
  {
   "property": "C178",
   "status": "proved",
   "theorems": [
    "C111_conform_to",
    "C111_as_df_rejects",
    "C111_merge_with_rejects",
    "C111_from_df"
   ],
   "note": ""
  },
  {
   "property": "C179",
   "status": "proved",
   "theorems": [
    "C112_retrieve_all",
    "C112_retrieve_first",
    "C112_retrieve_merged_none"
   ],
   "note": ""
  },
  {
   "property": "C180",
   "status": "proved",
   "theorems": [
    "C113_complete_classes",
    "C113_incomplete_classes",
    "C113_train",
    "C113_nothing_to_do",
    "C113_missing_samples"
   ],
   "note": ""
  },
  {
   "property": "C181",
   "status": "proved",
   "theorems": [
    "C114_sound",
    "C116_operators"
   ],
   "note": ""
  },
  {
   "property": "C182",
   "status": "proved",
   "theorems": [
    "C117_sound",
    "C118_subset",
    "C119_sound",
    "C120_disjoint"
   ],
   "note": ""
  },
  {
   "property": "C183",
   "status": "proved",
   "theorems": [
    "C121_conjunction"
   ],
   "note": ""
  },
  {
   "property": "C184",
   "status": "proved",
   "theorems": [
    "C125_quick",
    "C125_quick_explain"
   ],
   "note": ""
  },
  {
   "property": "C185",
   "status": "proved",
   "theorems": [
    "C126_total",
    "C126_errors",
    "C126_no_new_tables"
   ],
   "note": ""
  },
  {
   "property": "C186",
   "status": "proved",
   "theorems": [
    "C128_equivalence",
    "C128_same_tables",
    "C128_other_counts"
   ],
   "note": ""
  },
  {
   "property": "C187",
   "status": "proved",
   "theorems": [
    "C129_sound",
    "C129_choice",
    "C130_total"
   ],
   "note": ""
  },
  {
   "property": "C188",
   "status": "proved",
   "theorems": [
    "C131_supported",
    "C131_plans"
   ],
   "note": ""
  },
  {
   "property": "C189",
   "status": "proved",
   "theorems": [
    "C133_supported",
    "C133_supports",
    "C132_sound"
   ],
   "note": ""
  },
  {
   "property": "C190",
   "status": "proved",
   "theorems": [
    "C134_snake",
    "C134_injective",
    "C134_missing"
   ],
   "note": ""
  },
  {
   "property": "C191",
   "status": "partial",
   "theorems": [
    "C191_all_partial",
    "C191_allowed",
    "C191_joins_only_refuted",
    "C191_scans_only_refuted",
    "C191_plans_refuted",
    "C191_plans_raise_refuted"
   ],
   "note": "With scans and joins, the enumeration of operators is complete and free of duplicates for join orders without empty parts and repeated tables. Refuted otherwise: joins only gives nothing (a generator that returns a generator), scans only is a TypeError (missing argument), and plans are never enumerated since the operators are passed to to_query_plan by position."
  },
  {
   "property": "C192",
   "status": "partial",
   "theorems": [
    "C192_draw",
    "C192_no_operators",
    "C192_no_order_refuted",
    "C192_new",
    "C192_exhausted_refuted",
    "C192_plans_refuted"
   ],
   "note": "Drawing an assignment is sound and complete. Refuted: selection without a join order is an AttributeError, duplicate elimination never ends once all assignments were seen, and random plans are always a TypeError."
  },
  {
   "property": "C193",
   "status": "partial",
   "theorems": [
    "C193_other_systems",
    "C193_plain_partial",
    "C193_index_partial",
    "C193_sort_partial",
    "C193_between_refuted",
    "C193_final",
    "C193_parameters_refuted"
   ],
   "note": "Plain operators, index scans and sorting are costed as described. Refuted: the comparison that searches the materialize or memoize node never succeeds, so their cost is always infinite; native parameters are computed but not returned."
  },
  {
   "property": "C194",
   "status": "proved",
   "theorems": [
    "C192_draw",
    "C192_no_operators",
    "C192_new"
   ],
   "note": "Parts of C192 that hold without exception."
  },
  {
   "property": "C195",
   "status": "proved",
   "theorems": [
    "C191_allowed",
    "C193_final"
   ],
   "note": "Parts of C191 and C193 that hold without exception."
  },
  {
   "property": "C196",
   "status": "partial",
   "theorems": [
    "C196_join_order",
    "C196_order_determined",
    "C196_operators",
    "C196_cardinalities",
    "C196_workers",
    "C196_parallel_partial",
    "C196_gather_refuted",
    "C196_tables_refuted",
    "C196_tables_partial"
   ],
   "note": "Join order, operators and cardinalities are as described; a single parallel scan, join or top node gets its workers. Refuted: workers of auxiliary nodes such as Gather are given to the next operator in breadth first order, which may belong to another part of the plan; the hint of a scan whose filter mentions another table has that table, too."
  },
  {
   "property": "C197",
   "status": "proved",
   "theorems": [
    "C197_service",
    "C197_other_backends"
   ],
   "note": "The generators for parts are those of C31; conversion of EXPLAIN and LIMIT is left out."
  },
  {
   "property": "C198",
   "status": "proved",
   "theorems": [
    "C196_join_order",
    "C196_order_determined",
    "C196_operators",
    "C196_cardinalities",
    "C196_workers"
   ],
   "note": "Parts of C196 that hold without exception."
  },
  {
   "property": "C199",
   "status": "partial",
   "theorems": [
    "C199_generic_complete",
    "C199_generic_partial",
    "C199_generic_refuted",
    "C199_primary_column_partial",
    "C199_postgres_exact",
    "C199_postgres_partial",
    "C199_postgres_refuted",
    "C199_postgres_exclusive"
   ],
   "note": "Exact if the names of constraints are unique (generic) and if no primary key column is in another index (PostgreSQL). Refuted: a foreign key with the name of the primary key of another table makes the referenced column a primary key; PostgreSQL collects index columns in a dict whose last row wins, so primary key columns with another index lose one of the two, depending on the order of rows."
  },
  {
   "property": "C200",
   "status": "partial",
   "theorems": [
    "C200_mysql",
    "C200_postgres_complete",
    "C200_postgres_partial",
    "C200_postgres_composite_refuted",
    "C200_postgres_names_refuted",
    "C200_generic_swapped",
    "C200_generic_refuted",
    "C200_duckdb_partial",
    "C200_duckdb_refuted"
   ],
   "note": "MySQL is exact. PostgreSQL is exact for foreign keys of one column with unique names; refuted for composite keys and same-named constraints. The generic implementation takes the schema for the table and the table for the column, always. DuckDB misses composite keys."
  },
  {
   "property": "C201",
   "status": "partial",
   "theorems": [
    "C201_graph_partial",
    "C201_composite_refuted"
   ],
   "note": "Exact whenever it can be computed; refuted: a single table with a composite primary key makes as_graph() fail with ValueError. The attributes of nodes are left out."
  },
  {
   "property": "C202",
   "status": "proved",
   "theorems": [
    "C202_classes"
   ],
   "note": ""
  },
  {
   "property": "C203",
   "status": "partial",
   "theorems": [
    "C203_mysql_lookup",
    "C203_generic_never",
    "C203_generic_refuted",
    "C203_generic_bound",
    "C203_postgres_lookup_partial",
    "C203_postgres_sound",
    "C203_postgres_lookup_refuted",
    "C203_tables_partial",
    "C203_tables_refuted",
    "C203_getitem",
    "C203_getitem_refuted"
   ],
   "note": "MySQL is exact, PostgreSQL for up to five candidates and first calls of tables(). Refuted: the generic lookup_column (used by DuckDB) never finds a column given as text or without table; PostgreSQL makes a set of more than five candidates; its tables() ignores its arguments once tables are cached; schema[...] never finds columns, and never raises KeyError."
  },
  {
   "property": "C204",
   "status": "proved",
   "theorems": [
    "C199_postgres_exact",
    "C199_postgres_exclusive"
   ],
   "note": "Parts of C199 that hold without exception."
  },
  {
   "property": "C205",
   "status": "proved",
   "theorems": [
    "C199_generic_complete"
   ],
   "note": "Parts of C199 that hold without exception."
  },
  {
   "property": "C206",
   "status": "proved",
   "theorems": [
    "C200_mysql",
    "C200_postgres_complete"
   ],
   "note": "Parts of C200 that hold without exception."
  },
  {
   "property": "C207",
   "status": "proved",
   "theorems": [
    "C203_mysql_lookup",
    "C203_postgres_sound"
   ],
   "note": "Parts of C203 that hold without exception."
  },
  {
   "property": "C208",
   "status": "partial",
   "theorems": [
    "C208_tables",
    "C208_joined",
    "C208_once_partial",
    "C208_star",
    "C208_refuted"
   ],
   "note": "Each table once: if no table is referenced by two tables, and for star queries. Refuted: a table that is referenced by two tables, one of which references the other, is joined twice (nx_bfs_tree marks tables only when they leave the queue)."
  },
  {
   "property": "C209",
   "status": "partial",
   "theorems": [
    "C209_partial",
    "C209_refuted"
   ],
   "note": "Proved for connected queries in which each edge is an n:m join or compares only keys and no table of an n:m join is referenced. Refuted: a referenced table with an n:m join can lead to AssertionError (depending on the estimates), a predicate with keys and other columns to KeyError, a component of a single table to JoinOrderOptimizationError, two tables without join to AttributeError."
  },
  {
   "property": "C210",
   "status": "proved",
   "theorems": [
    "C210_star",
    "C210_two",
    "C210_start",
    "C210_next"
   ],
   "note": "Estimates are those of the state at the time of the choice; the bounds of the first table are those of the initial state (UES estimators)."
  },
  {
   "property": "C211",
   "status": "partial",
   "theorems": [
    "C211_components",
    "C211_refuted"
   ],
   "note": "Refuted: the result of sorted() is not used, so the components are joined in the order in which they are found."
  },
  {
   "property": "C212",
   "status": "proved",
   "theorems": [
    "C208_tables",
    "C208_joined",
    "C208_star"
   ],
   "note": "Parts of C208 that hold without exception."
  },
  {
   "property": "C213",
   "status": "proved",
   "theorems": [
    "C211_components"
   ],
   "note": "Part of C211 that holds without exception."
  },
  {
   "property": "C214",
   "status": "proved",
   "theorems": [
    "C214_tables"
   ],
   "note": "Random choices are arbitrary. A limit of zero is treated like no limit (x or default)."
  },
  {
   "property": "C215",
   "status": "proved",
   "theorems": [
    "C215_sound",
    "C215_joins"
   ],
   "note": "Columns and tables are compared by identity; values are those of the SELECT DISTINCT query."
  },
  {
   "property": "C216",
   "status": "partial",
   "theorems": [
    "C216_connected_partial",
    "C216_refuted",
    "C216_fails_refuted"
   ],
   "note": "Proved if the usable tables of the schema are connected. Refuted otherwise: the random walk jumps to another component, which gives a cross product, or ValueError if there is no foreign key at all."
  },
  {
   "property": "C217",
   "status": "partial",
   "theorems": [
    "C217_progress_partial",
    "C217_equal",
    "C217_refuted",
    "C217_single_refuted"
   ],
   "note": "Proved for at least two tables, connected usable tables and more filterable columns in each table than min_filters. Refuted: with min_filters = max_filters no query is ever generated (line 295 compares with <=); a single table with a single filter is a ValueError (line 326 appends the join predicates instead of the filter)."
  },
  {
   "property": "C218",
   "status": "partial",
   "theorems": [
    "C218_filters",
    "C218_enough_partial",
    "C218_refuted",
    "C218_zero_refuted",
    "C218_values_refuted"
   ],
   "note": "The upper limit and different columns are proved without exception for positive limits (C219), the lower limit if at least two filters are wanted and each column has several values. Refuted: a single filter is lost and the join predicates are repeated instead; max_filters=0 is ignored; a column with a single falsy value is not filtered."
  },
  {
   "property": "C219",
   "status": "proved",
   "theorems": [
    "C218_filters"
   ],
   "note": ""
  },
  {
   "property": "C220",
   "status": "partial",
   "theorems": [
    "C220_none",
    "C220_tables_partial",
    "C220_projected",
    "C220_refuted"
   ],
   "note": "Proved if targets without columns read no table, and for star/count_star. Refuted: a target without columns is always kept, so (SELECT COUNT(*) FROM T) brings its tables along."
  },
  {
   "property": "C221",
   "status": "partial",
   "theorems": [
    "C221_lists",
    "C221_conjuncts",
    "C221_select_partial",
    "C221_refuted",
    "C221_star_refuted",
    "C221_distinct_refuted"
   ],
   "note": "GROUP BY, ORDER BY, CTEs and the conjuncts of WHERE are proved without exception; SELECT for a single wanted table. Refuted: with several wanted tables targets are only kept if they read all of them (line 409 tests equality instead of inclusion), if there are none the fragment selects *; DISTINCT ON becomes DISTINCT."
  },
  {
   "property": "C222",
   "status": "partial",
   "theorems": [
    "C222_from_partial",
    "C222_refuted"
   ],
   "note": "Proved if all tables of the query are in its FROM clause. Refuted: wanted tables of subqueries become tables of FROM, i.e. cross products."
  },
  {
   "property": "C223",
   "status": "partial",
   "theorems": [
    "C223_sets_partial",
    "C223_refuted",
    "C223_projection_refuted"
   ],
   "note": "Proved if both sides have all wanted tables and the projection is kept. Refuted: a wanted table that only one side has is an AttributeError; the projection is ignored for set queries."
  },
  {
   "property": "C224",
   "status": "partial",
   "theorems": [
    "C224_ctes_partial",
    "C224_refuted"
   ],
   "note": "Proved if CTEs read no other CTEs. Refuted: a CTE that is only read by other CTEs is dropped."
  },
  {
   "property": "C225",
   "status": "partial",
   "theorems": [
    "C225_success_partial",
    "C225_refuted"
   ],
   "note": "Proved for predicates without NOT. Refuted: NOT is a TypeError (its child is not a list)."
  },
  {
   "property": "C226",
   "status": "proved",
   "theorems": [
    "C220_none",
    "C220_projected",
    "C221_lists",
    "C221_conjuncts"
   ],
   "note": ""
  },
  {
   "property": "C227",
   "status": "proved",
   "theorems": [
    "C227_policy"
   ],
   "note": ""
  },
  {
   "property": "C228",
   "status": "proved",
   "theorems": [
    "C228_option",
    "C228_finds"
   ],
   "note": ""
  },
  {
   "property": "C229",
   "status": "partial",
   "theorems": [
    "C229_refuted",
    "C229_partial",
    "C229_order_refuted"
   ],
   "note": "Proved if candidate queries always have results, there are no IN predicates and the dependency graph hands out dependencies first. Refuted: a failed draw redraws the dependencies, but predicates that were drawn from their old values stay; with the order of DependencyGraph (C43) a predicate may be drawn before its dependencies (StateError)."
  },
  {
   "property": "C230",
   "status": "partial",
   "theorems": [
    "C230_uniform_refuted",
    "C230_samples_refuted",
    "C230_weights_refuted",
    "C230_partial"
   ],
   "note": "Proved for weighted sampling without weight column. Refuted: uniform samples are tuples of tuples and run into an assertion (652-653), min_samples > 1 never passes the check because the length of the list around the tuple is compared (456), weight columns are always rejected (390)."
  },
  {
   "property": "C231",
   "status": "partial",
   "theorems": [
    "C231_like_refuted",
    "C231_quote_refuted",
    "C231_partial",
    "C231_in_partial"
   ],
   "note": "Proved for comparisons and IN lists with values without quotes. Refuted: LIKE and ILIKE patterns are quoted twice (660-661), quotes inside of values are not doubled."
  },
  {
   "property": "C232",
   "status": "proved",
   "theorems": [
    "C232_filled",
    "C232_text"
   ],
   "note": ""
  },
  {
   "property": "C233",
   "status": "partial",
   "theorems": [
    "C233_owner",
    "C233_clash",
    "C233_refuted"
   ],
   "note": "The conditions and owners are proved for all templates (C236). Refuted: a predicate with a clashing placeholder stays registered under its name and earlier placeholders (547-554)."
  },
  {
   "property": "C234",
   "status": "partial",
   "theorems": [
    "C234_refuted",
    "C234_partial"
   ],
   "note": "Proved for columns with table name. Refuted: the loop over the aliases unpacks their names (633), which fails unless they all have two letters."
  },
  {
   "property": "C235",
   "status": "partial",
   "theorems": [
    "C235_unique",
    "C235_labels",
    "C235_refuted",
    "C235_same_label_refuted",
    "C235_partial"
   ],
   "note": "Uniqueness, labels and the upper bound are proved (C236), the exact number for templates with different labels that never repeat a query. Refuted: a duplicate in the very last try (one after the checked one, 777-785) silently ends the loop; templates with the same label overwrite each other's queries."
  },
  {
   "property": "C236",
   "status": "proved",
   "theorems": [
    "C233_owner",
    "C233_clash",
    "C235_unique",
    "C235_labels"
   ],
   "note": ""
  },
  {
   "property": "C237",
   "status": "partial",
   "theorems": [
    "C237_distinct_on_refuted",
    "C237_values_refuted",
    "C237_predicate_refuted",
    "C237_values_table_refuted",
    "C237_twice_refuted",
    "C237_terminates_refuted",
    "C237_assertion",
    "C237_partial",
    "C237_result_partial"
   ],
   "note": "Proved for replacements that keep subqueries as a whole and queries with plain predicates and named (virtual) VALUES lists. Refuted: DISTINCT ON expressions are kept (1162), a VALUES list without name raises AttributeError (1090), one with a named table gets a virtual table, SimpleFilter and SimpleJoin raise ValueError, replacements that handle subqueries are applied twice inside of subqueries in FROM or never terminate (1058-1062)."
  },
  {
   "property": "C238",
   "status": "proved",
   "theorems": [
    "C238_identity",
    "C238_compose",
    "C238_undo"
   ],
   "note": ""
  },
  {
   "property": "C239",
   "status": "partial",
   "theorems": [
    "C239_gone_refuted",
    "C239_gone_partial",
    "C239_meaning"
   ],
   "note": "The meaning is proved for base predicates in place of which the new one is used. Refuted: replacing NOT a by a in NOT NOT a leaves NOT a, since the replacement is not repeated; the old predicate is gone if it is a base predicate."
  },
  {
   "property": "C240",
   "status": "proved",
   "theorems": [
    "C240_equivalent",
    "C240_absent",
    "C240_query"
   ],
   "note": ""
  },
  {
   "property": "C241",
   "status": "partial",
   "theorems": [
    "C241_subquery_partial",
    "C241_nested_removal_refuted",
    "C241_mixed_or_refuted",
    "C241_foreign_column_refuted",
    "C241_explicit_join_refuted",
    "C241_other_tables_refuted"
   ],
   "note": "Proved for FROM lists of distinct tables, moved tables of the query, a fresh subquery name, disjunctions that do not mix filters and joins, a subquery condition that only mentions moved tables and no moved predicate inside a disjunction or negation. Refuted without: a moved predicate is also deleted inside ORs, only the filter part of a mixed OR is moved, the subquery may refer to other tables, explicit joins of the moved tables are kept as well, other tables are added to the query."
  },
  {
   "property": "C242",
   "status": "partial",
   "theorems": [
    "C242_shape",
    "C242_renamed",
    "C242_tables_refuted"
   ],
   "note": "The shape is proved. Refuted: tables() of the new query contains table sources instead of tables, so moving tables again raises AttributeError."
  },
  {
   "property": "C243",
   "status": "proved",
   "theorems": [
    "C243_rejected"
   ],
   "note": ""
  },
  {
   "property": "C244",
   "status": "partial",
   "theorems": [
    "C244_quick_format_tokens_partial",
    "C244_expression_tokens_partial",
    "C244_quick_format_tokens_refuted"
   ],
   "note": "Proved for the vanilla flavor without inlined hints for queries without newlines in literals, casts to array types, arithmetic or CASE as result of CASE, VALUES CTEs next to others or with [NOT] MATERIALIZED or RECURSIVE, and with at most one of LIMIT and OFFSET, which is not 0. Refuted without: literals in subqueries are changed, array types and MATERIALIZED get lost, LIMIT 0 is dropped. Joins in FROM and set queries are in C124 and C125."
  },
  {
   "property": "C245",
   "status": "partial",
   "theorems": [
    "C245_experiment_log_partial",
    "C245_json_round_trip",
    "C245_experiment_log_refuted"
   ],
   "note": "Proved for logs written by the benchmarks themselves, if no two runs have the same name and start time, timestamps are ISO dates (at least 19 characters) and a run ends at most once. Refuted without: the file is rewritten without truncating it, so after reformatting the log with more indentation it becomes unreadable and no further benchmark can start; two runs of the same name in the same second both get the outcome of either. JSON numbers are natural numbers in the model, non-ASCII characters are not escaped."
  },
  {
   "property": "C246",
   "status": "partial",
   "theorems": [
    "C246_prepare_query_partial",
    "C246_execute_query_partial",
    "C246_failing_statement",
    "C246_prepare_query_refuted"
   ],
   "note": "Proved for documented option values and queries that are no set queries (or projection none), if prewarming and the preparatory statements succeed. Refuted without: set queries with a projection raise ValueError, an unknown output mode is ignored silently, and errors of the preparation are raised out of the benchmark instead of being recorded."
  },
  {
   "property": "C247",
   "status": "partial",
   "theorems": [
    "C247_remove_random_partial",
    "C247_invalid_requests",
    "C247_remove_random_refuted"
   ],
   "note": "Proved for tables of the default schema whose primary key is one column not named sample_id or _pb_rand_val. Refuted without: a table with primary key sample_id loses all rows, and for a table of another schema the rows of the table of the same name in the default schema are deleted. The SQL statements are modelled by their documented effect; no cascading deletes."
  },
  {
   "property": "C248",
   "status": "partial",
   "theorems": [
    "C248_remove_ordered_partial",
    "C248_nulls_are_largest",
    "C248_remove_ordered_refuted"
   ],
   "note": "Proved for tables of the default schema. Refuted without: for a column of a table in another schema the rows of the table of the same name in the default schema are deleted, and columns given as text cannot name a schema."
  },
  {
   "property": "C249",
   "status": "partial",
   "theorems": [
    "C249_generate_marks_partial",
    "C249_remove_marked",
    "C249_export_import_partial",
    "C249_markers_refuted"
   ],
   "note": "Proved for percentages up to rounding to whole percents, and for export/import that name the target table. Refuted without: less than half a percent marks nothing, and importing by the name of the marker table only creates a column for a table None, so that removing the marked rows fails. The SQL statements are modelled by their documented effect."
  },
  {
   "property": "C250",
   "status": "proved",
   "theorems": [
    "C249_remove_marked"
   ],
   "note": "See the theorem of C249."
  },
  {
   "property": "C251",
   "status": "partial",
   "theorems": [
    "C251_pg_connect_partial",
    "C251_history",
    "C251_current_database",
    "C251_connect_refuted",
    "C251_other_connect",
    "C251_any_database"
   ],
   "note": "Proved for Postgres if the name is not taken by another system. Refuted without: DuckDB with refresh replaces the registered database of the same name, a name taken by another system is an AssertionError, and connecting to MySQL is always a TypeError (MysqlStatisticsInterface leaves an abstract method open). Servers accept all connections in the model."
  },
  {
   "property": "C252",
   "status": "partial",
   "theorems": [
    "C252_config_parameters_partial",
    "C252_environment_partial",
    "C252_precedence",
    "C252_config_parameters_refuted",
    "C252_texts"
   ],
   "note": "Proved for parameter names without blanks and equals signs and for values without single quotes and backslashes. Refuted without: values are not escaped, so a quote makes the string unreadable or changes other parameters, and backslashes get lost."
  },
  {
   "property": "C253",
   "status": "proved",
   "theorems": [
    "C251_history",
    "C251_current_database",
    "C252_precedence"
   ],
   "note": "See the theorems of C251 and C252."
  },
  {
   "property": "C254",
   "status": "partial",
   "theorems": [
    "C254_exists",
    "C254_join_graph_partial",
    "C254_edge_refuted"
   ],
   "note": "Proved: nodes, their filters, which tables are connected, and that the annotation is the last join predicate between the tables in iteration order. Refuted: with two join predicates between two tables the annotation misses one of them."
  },
  {
   "property": "C255",
   "status": "partial",
   "theorems": [
    "C255_merged_partial",
    "C255_merged_refuted"
   ],
   "note": "Proved: the nodes of the base tables with their aliases and filters, when the graph exists, and that the edges connect the compared columns. Refuted: there are no edges between tables, columns become nodes, and a self join on the same column is a ValueError."
  },
  {
   "property": "C256",
   "status": "partial",
   "theorems": [
    "C256_legacy_partial",
    "C256_legacy_many",
    "C256_graph_partial",
    "C256_strategies_refuted"
   ],
   "note": "Proved for joins of exactly two tables (legacy) and for collections of tables (legacy); the graph strategy is proved to find one of the join predicates iff there is one. Refuted: legacy finds joins of three tables which the default does not find; the graph strategy drops predicates."
  },
  {
   "property": "C257",
   "status": "partial",
   "theorems": [
    "C257_wrap",
    "C257_wrap_all",
    "C257_partners",
    "C257_can_wrap_partial",
    "C257_can_wrap_refuted"
   ],
   "note": "wrap, wrap_all and the partners are proved; can_wrap is right if it answers. Refuted: can_wrap raises a ValueError for function calls, and the join partners of a view are ordered differently from those of its predicate."
  },
  {
   "property": "C258",
   "status": "proved",
   "theorems": [
    "C257_wrap",
    "C257_wrap_all",
    "C257_partners",
    "C254_exists"
   ],
   "note": "See the theorems of C257 and C254."
  },
  {
   "property": "C259",
   "status": "partial",
   "theorems": [
    "C259_ast_lines",
    "C259_ast_determines_partial",
    "C259_ast_refuted"
   ],
   "note": "Proved: the lines are the preorder of the plan without its subplans, and the text determines this tree. Refuted for the whole plan: nodes of subplans are missing."
  },
  {
   "property": "C260",
   "status": "partial",
   "theorems": [
    "C260_inspect_lines",
    "C260_inspect_full",
    "C260_inspect_determines_partial",
    "C260_metadata",
    "C260_inspect_refuted"
   ],
   "note": "Proved: the lines, and that the text determines the tree in which subplans are last children, hence the plan if there are no subplans. Refuted: a subplan cannot be told from a further child."
  },
  {
   "property": "C261",
   "status": "proved",
   "theorems": [
    "C261_inspect_works",
    "C261_inspect_fails",
    "C261_every_node"
   ],
   "note": "The attribute access of a node is a parameter of the model that may raise."
  },
  {
   "property": "C262",
   "status": "partial",
   "theorems": [
    "C262_phys_ops_partial",
    "C262_phys_ops_refuted"
   ],
   "note": "Proved for plans without subplans. Refuted: operators of subplans are not counted. The other entries of the summary are not modelled."
  },
  {
   "property": "C263",
   "status": "partial",
   "theorems": [
    "C263_comments_partial",
    "C263_comments_refuted"
   ],
   "note": "Proved for line comments before everything else or directly after other comments, and block comments that are not nested, if nothing else in the text looks like a comment. Refuted: literals become hints or make the parser fail, later line comments are lost or errors, nested comments are cut."
  },
  {
   "property": "C264",
   "status": "partial",
   "theorems": [
    "C264_set_partial",
    "C264_single",
    "C264_set_refuted"
   ],
   "note": "Proved for string values without quotes, and that only SET commands with a string as first value and one further statement are accepted. Refuted: numbers, lists of values, quotes."
  },
  {
   "property": "C265",
   "status": "partial",
   "theorems": [
    "C265_limit_partial",
    "C265_limit_refuted"
   ],
   "note": "Proved for positive limits and all offsets, if the text contains one of the usual spellings. Refuted: LIMIT 0, LIMIT ALL, further blanks in FETCH FIRST."
  },
  {
   "property": "C266",
   "status": "partial",
   "theorems": [
    "C266_emulated_partial",
    "C266_schema_refuted",
    "C266_null_refuted",
    "C266_bounds_refuted"
   ],
   "note": "Proved for tables without a schema and, for lists of values and histograms, without NULLs. Refuted: the schema of a table is ignored, NULL as frequent as a value raises TypeError, NULL can become a bound of a histogram."
  },
  {
   "property": "C267",
   "status": "partial",
   "theorems": [
    "C267_top_partial",
    "C267_ties_refuted"
   ],
   "note": "Proved for the frequencies, and for the values if no tie crosses the cut. Refuted by ties: the query prefers smaller values, the list larger ones."
  },
  {
   "property": "C268",
   "status": "partial",
   "theorems": [
    "C268_coherent",
    "C268_off_partial",
    "C268_priority",
    "C268_off_refuted"
   ],
   "note": "Coherence and priority are proved unconditionally; the disabled cache for emulated row counts, distinct values, minima and maxima, and lists of values. Refuted: histograms read the row count from the cache, min_max of Postgres always stores its result."
  },
  {
   "property": "C269",
   "status": "proved",
   "theorems": [
    "C269_sources",
    "C269_fallback",
    "C269_bins",
    "C269_duckdb_rows"
   ],
   "note": "The five statistics and the catalogs of Postgres and DuckDB."
  },
  {
   "property": "C270",
   "status": "partial",
   "theorems": [
    "C270_distinct_partial",
    "C270_catalog_refuted",
    "C270_mcv_partial"
   ],
   "note": "Proved for analysed tables in the search path. Refuted: never analysed tables have -1 rows, tables of other schemas raise AssertionError."
  },
  {
   "property": "C271",
   "status": "partial",
   "theorems": [
    "C271_columns",
    "C271_accepted_partial",
    "C271_duplicates_refuted",
    "C271_distinct_partial",
    "C271_distinct_refuted"
   ],
   "note": "The covered columns are proved unconditionally; that the server accepts the command for columns without repetitions. Refuted: a column given twice, and the true number of distinct values, which is set after ANALYZE and takes effect with the next update only."
  },
  {
   "property": "C272",
   "status": "partial",
   "theorems": [
    "C272_prewarm",
    "C272_cooldown_partial",
    "C272_cooldown_refuted"
   ],
   "note": "prewarm_tables is proved; cooldown_tables for base tables. Refuted: cooldown_tables includes virtual tables."
  },
  {
   "property": "C273",
   "status": "partial",
   "theorems": [
    "C273_batch_partial",
    "C273_blank_refuted",
    "C273_repeated_refuted"
   ],
   "note": "Proved for files without blank lines and repeated queries. Refuted: each blank line makes the file unreadable, repeated queries are kept once."
  },
  {
   "property": "C274",
   "status": "partial",
   "theorems": [
    "C274_csv_partial",
    "C274_labels_partial",
    "C274_labels_refuted"
   ],
   "note": "Proved for distinct queries and labels. Refuted: of two labels of one query the first is lost."
  },
  {
   "property": "C275",
   "status": "partial",
   "theorems": [
    "C275_load_partial",
    "C275_local_partial",
    "C275_retry_refuted",
    "C275_names"
   ],
   "note": "Proved for a first download that works, with all later accesses, for queries on the disk, and for the names. Refuted: after one failed download all later accesses fail, since the empty directory stays."
  },
  {
   "property": "C276",
   "status": "partial",
   "theorems": [
    "C276_load_partial",
    "C276_small_refuted",
    "C276_dates_partial",
    "C276_dates_refuted",
    "C276_stamps_partial",
    "C276_stamps_refuted"
   ],
   "note": "Proved: the order of loaded values, Python dates and timestamps that are sent and read back, dates other than the extreme ones that are read and sent back. Refuted: values before the range of Python cannot be read, the largest date becomes infinity, infinite timestamps become finite."
  },
  {
   "property": "C277",
   "status": "partial",
   "theorems": [
    "C277_exhaustive_partial",
    "C277_sample_partial",
    "C277_limit_partial",
    "C277_explore_refuted",
    "C277_default_refuted"
   ],
   "note": "Proved for the functions that enumerate and sample combinations. Refuted: explore_costs raises TypeError for all join orders with joins (sets as keys), and always without max_combinations."
  },
  {
   "property": "C278",
   "status": "partial",
   "theorems": [
    "C278_accept_partial",
    "C278_accept_refuted"
   ],
   "note": "Proved for all nodes but unions, intersections and differences, which pass the visitor instead of the node."
  },
  {
   "property": "C279",
   "status": "partial",
   "theorems": [
    "C279_visitor",
    "C279_lookup_partial",
    "C279_lookup_refuted",
    "C279_window_refuted",
    "C279_sound",
    "C279_no_table"
   ],
   "note": "What the visitor finds is right for all predicates; the table is found if each operator refers to a table. Refuted: operators on constants only are rejected, tables inside of independent subqueries are accepted."
  },
  {
   "property": "C280",
   "status": "proved",
   "theorems": [
    "C271_columns"
   ],
   "note": ""
  },
  {
   "property": "C281",
   "status": "proved",
   "theorems": [
    "C272_prewarm"
   ],
   "note": ""
  },
  {
   "property": "C282",
   "status": "proved",
   "theorems": [
    "C268_coherent",
    "C268_priority"
   ],
   "note": ""
  },
  {
   "property": "C283",
   "status": "proved",
   "theorems": [
    "C275_names"
   ],
   "note": ""
  },
  {
   "property": "C284",
   "status": "proved",
   "theorems": [
    "C279_visitor"
   ],
   "note": ""
  },
  {
   "property": "C285",
   "status": "proved",
   "theorems": [
    "C242_shape",
    "C242_renamed"
   ],
   "note": ""
  },
  {
   "property": "C286",
   "status": "proved",
   "theorems": [
    "C239_meaning"
   ],
   "note": ""
  },
  {
   "property": "C287",
   "status": "partial",
   "theorems": [
    "C287_apply_partial",
    "C287_refused",
    "C287_single_partial",
    "C287_quote_refuted",
    "C287_apply_refuted"
   ],
   "note": "Refuted: recursive_worktable_factor is skipped because a comma is missing in the set of settings (postgres.py 177-179), and quotes in values are not escaped, so other settings can change. Proved for values without quotes and the settings known as changeable; refusals change nothing."
  },
  {
   "property": "C288",
   "status": "partial",
   "theorems": [
    "C288_restore_partial",
    "C288_restore_refuted"
   ],
   "note": "Refuted for recursive_worktable_factor (missing comma). Proved for all settings in the set, for values without quotes that the server accepts as it shows them."
  },
  {
   "property": "C289",
   "status": "partial",
   "theorems": [
    "C289_current",
    "C289_listed_refuted",
    "C289_listed_partial",
    "C289_only_listed"
   ],
   "note": "Refuted: autovacuum and recursive_worktable_factor are listed but not reported (missing comma). Proved for all other listed settings."
  },
  {
   "property": "C290",
   "status": "partial",
   "theorems": [
    "C290_extension_partial",
    "C290_extension_refuted"
   ],
   "note": "Refuted: any open file ending with the name counts, e.g. pg_lab.so for the extension lab. Proved: the exact condition, and that open libraries and installed extensions are found."
  },
  {
   "property": "C291",
   "status": "proved",
   "theorems": [
    "C291_infer"
   ],
   "note": "Proved for all values of the settings."
  },
  {
   "property": "C292",
   "status": "proved",
   "theorems": [
    "C292_as_expression"
   ],
   "note": "Proved for None, integers, booleans, strings, expressions, columns, queries, tuples and lists."
  },
  {
   "property": "C293",
   "status": "proved",
   "theorems": [
    "C293_operators",
    "C293_all_spelled"
   ],
   "note": "Proved for ASCII texts."
  },
  {
   "property": "C294",
   "status": "proved",
   "theorems": [
    "C294_comparison"
   ],
   "note": "Proved."
  },
  {
   "property": "C295",
   "status": "partial",
   "theorems": [
    "C295_between_partial",
    "C295_between_refuted"
   ],
   "note": "Both documented forms work and nothing else is accepted, except for a single string: 'az' is taken apart into the bounds 'a' and 'z' (3541-3543)."
  },
  {
   "property": "C296",
   "status": "partial",
   "theorems": [
    "C296_in_partial",
    "C296_in_refuted"
   ],
   "note": "Holds for values and iterables of values. Iterables within iterables are not flattened: lists lead to a TypeError, tuples become a single tuple literal."
  },
  {
   "property": "C297",
   "status": "partial",
   "theorems": [
    "C297_required_needed",
    "C297_required_partial",
    "C297_required_refuted"
   ],
   "note": "No table is reported that is not needed. Tables are missed if they are used only by the results of a CASE, the partitioning of a window function, the FILTER of an aggregate or R.*."
  },
  {
   "property": "C298",
   "status": "partial",
   "theorems": [
    "C298_output_names_partial",
    "C298_output_names_refuted",
    "C298_output_names_exact_partial"
   ],
   "note": "Aliases of plain columns are reported correctly and every reported column occurs in a projection of that name. Any expression whose columns() is a single column is reported as well, e.g. MIN(R.a), or a CASE over two columns."
  },
  {
   "property": "C299",
   "status": "partial",
   "theorems": [
    "C299_literal_partial",
    "C299_literal_refuted"
   ],
   "note": "Holds for numbers, for strings without backslashes and (without ANSI_QUOTES) without double quotes, and for NULL with ANSI_QUOTES. Without ANSI_QUOTES NULL is written as the string \"None\" and double quotes are not escaped, so that no string with one can be read back; backslashes are never escaped. Literals nested in other expressions keep the standard text, which is the text of the first case."
  },
  {
   "property": "C300",
   "status": "partial",
   "theorems": [
    "C300_explain_partial",
    "C300_clause_partial",
    "C300_explain_refuted"
   ],
   "note": "The query with the MySQL clause is discarded (629-630), so the standard text is used: correct without a format, but no valid EXPLAIN of MySQL for any format. The discarded clause itself would be right."
  },
  {
   "property": "C301",
   "status": "partial",
   "theorems": [
    "C301_format_partial",
    "C301_format_refuted"
   ],
   "note": "All expressions but casts can be formatted (casts nested in functions can, too). A cast that is a SELECT target or an operand of a predicate raises a TypeError, as the prettifier rebuilds it with arguments that _MysqlCastExpression does not have."
  },
  {
   "property": "C302",
   "status": "partial",
   "theorems": [
    "C302_sent_partial",
    "C302_preparation_partial",
    "C302_text_partial",
    "C302_sent_refuted"
   ],
   "note": "Holds without hint blocks. Hint blocks are sent in front of the statement, where MySQL does not read them, as str(query) is sent instead of the result of format_query(). Texts that start with another EXPLAIN get a second one."
  },
  {
   "property": "C303",
   "status": "partial",
   "theorems": [
    "C303_query_plan_partial",
    "C303_query_plan_refuted"
   ],
   "note": "Proved for queries without preparatory statements (_partial). Refuted for all others: the SET commands are part of the text, their missing result is taken for the plan, and the call ends in an IndexError although the settings were changed (_refuted, for every query with preparatory statements)."
  },
  {
   "property": "C304",
   "status": "proved",
   "theorems": [
    "C304_estimates"
   ],
   "note": "For every server that answers EXPLAIN with one document: same settings, same result or failure as query_plan."
  },
  {
   "property": "C305",
   "status": "proved",
   "theorems": [
    "C305_analyze_plan"
   ],
   "note": "Timeouts and other errors of the server are arbitrary; SET commands are assumed to succeed."
  },
  {
   "property": "C306",
   "status": "proved",
   "theorems": [
    "C306_parse_plan",
    "C306_only_plans"
   ],
   "note": "All shapes, and the converse: anything accepted contains the document."
  },
  {
   "property": "C307",
   "status": "partial",
   "theorems": [
    "C307_configure_refuted",
    "C307_settings_partial"
   ],
   "note": "Refuted for every operator: self._pg_instance.cursor is a method, so .execute ends in an AttributeError and no setting changes. Proved: each operator has a setting of its own (_partial)."
  },
  {
   "property": "C308",
   "status": "partial",
   "theorems": [
    "C308_backend_partial",
    "C308_switched_on",
    "C308_not_observable",
    "C308_backend_refuted"
   ],
   "note": "Refuted: a backend is reported although hints are switched off, for remote servers without any backend, and for libraries with similar names. Proved for observable servers without switched-off hints and with proper names; for servers that cannot be observed, pg_hint_plan is assumed (C308_not_observable)."
  },
  {
   "property": "C309",
   "status": "proved",
   "theorems": [
    "C279_sound",
    "C279_no_table",
    "C279_visitor"
   ],
   "note": "The parts of C279 that hold for all predicates."
  },
  {
   "property": "C310",
   "status": "proved",
   "theorems": [
    "C289_current",
    "C289_only_listed"
   ],
   "note": "The parts of C289 that hold for all servers; the only name that is not a setting is the one with the missing comma, which no server shows."
  },
  {
   "property": "C311",
   "status": "proved",
   "theorems": [
    "C287_refused"
   ],
   "note": "The part of C287 on refused values."
  },
  {
   "property": "C312",
   "status": "partial",
   "theorems": [
    "C312_to_json_partial",
    "C312_none",
    "C312_to_json_refuted"
   ],
   "note": "Proved, in both directions, for all objects in which no dataclass with its own __json__ is nested in another dataclass (_partial). Refuted otherwise: dataclasses.asdict replaces the inner representation by the fields. None is returned as None instead of being encoded."
  },
  {
   "property": "C313",
   "status": "partial",
   "theorems": [
    "C313_params_partial",
    "C313_params_refuted"
   ],
   "note": "Refuted for all parameters with at least one cardinality or worker: their keys are sets, which JSON does not support, and reading builds frozenset(table), a TypeError. Only empty parameters survive (_partial)."
  },
  {
   "property": "C314",
   "status": "partial",
   "theorems": [
    "C314_names",
    "C314_nested_partial",
    "C314_nested_refuted",
    "C314_refused"
   ],
   "note": "The tree, names and aliases are kept for all sequences (C314_names); schemas and virtual tables are lost (_refuted); exact for tables without either (_partial)."
  },
  {
   "property": "C315",
   "status": "proved",
   "theorems": [
    "C315_counterpart",
    "C315_hashable",
    "C315_idempotent",
    "C315_unhashable"
   ],
   "note": "For all nested containers. The hash functions of atoms, tuples and frozensets are arbitrary."
  },
  {
   "property": "C316",
   "status": "partial",
   "theorems": [
    "C316_hash_partial",
    "C316_hash_refuted"
   ],
   "note": "Refuted: the hash value of a HashableDict depends on the order of insertion, equal dictionaries with differently ordered keys never agree for collision-free hash functions. Proved for equal order, with sets iterated in any order (_partial)."
  },
  {
   "property": "C317",
   "status": "partial",
   "theorems": [
    "C317_schema_partial",
    "C317_schema_refuted",
    "C317_warning"
   ],
   "note": "Refuted: a given schema is used although bind_columns is False. Proved if no schema is given or binding is enabled."
  },
  {
   "property": "C318",
   "status": "partial",
   "theorems": [
    "C318_explain_partial",
    "C318_explain_refuted",
    "C318_format"
   ],
   "note": "Refuted: EXPLAIN (ANALYZE false) is read as EXPLAIN ANALYZE, since the value of the option is ignored. Proved if ANALYZE is not switched off; see C322 for the rest."
  },
  {
   "property": "C319",
   "status": "partial",
   "theorems": [
    "C319_accepted_partial",
    "C319_refused",
    "C319_set_queries_refuted"
   ],
   "note": "Refuted: the check for set queries looks at the text instead of the parsed query, so set queries are always accepted. Proved for other queries; see C323. Statements stand for what pglast returns after the SET commands (PHint_model.v)."
  },
  {
   "property": "C320",
   "status": "partial",
   "theorems": [
    "C320_contains_partial",
    "C320_contains_refuted",
    "C320_sound"
   ],
   "note": "Refuted: containment is that of proper subsets, so a relation does not contain itself and the relation of a single table does not contain this table. Proved for items that do not have all tables of the relation; see C324."
  },
  {
   "property": "C321",
   "status": "proved",
   "theorems": [
    "C321_stage",
    "C321_refused"
   ],
   "note": "Stages are given by the interfaces that they implement."
  },
  {
   "property": "C322",
   "status": "proved",
   "theorems": [
    "C318_format"
   ],
   "note": "Part of C318 that holds throughout."
  },
  {
   "property": "C323",
   "status": "proved",
   "theorems": [
    "C319_refused"
   ],
   "note": "Part of C319 that holds throughout."
  },
  {
   "property": "C324",
   "status": "proved",
   "theorems": [
    "C320_sound"
   ],
   "note": "Part of C320 that holds throughout."
  },
  {
   "property": "C325",
   "status": "proved",
   "theorems": [
    "C317_warning"
   ],
   "note": "Part of C317 that holds throughout."
  },
  {
   "property": "C326",
   "status": "partial",
   "theorems": [
    "C326_frozen_partial",
    "C326_refused",
    "C326_frozen_refuted"
   ],
   "note": "Refuted: the operator |= works on the underlying dictionary and changes the entries. Proved for all other operations; see C335."
  },
  {
   "property": "C327",
   "status": "proved",
   "theorems": [
    "C327_create"
   ],
   "note": ""
  },
  {
   "property": "C328",
   "status": "partial",
   "theorems": [
    "C328_copy_partial",
    "C328_copy_refuted"
   ],
   "note": "Refuted: copy() fills a frozen copy, so it raises a TypeError unless there are no entries (which is the proved part)."
  },
  {
   "property": "C329",
   "status": "partial",
   "theorems": [
    "C329_written_partial",
    "C329_written_refuted"
   ],
   "note": "Refuted: if a column has texts as well as missing values, the texts are written with quotes. Proved if complex objects are only together with missing values and other columns of type object only have texts. JSON texts are arbitrary functions (see C312)."
  },
  {
   "property": "C330",
   "status": "partial",
   "theorems": [
    "C330_unchanged_partial",
    "C330_unchanged_refuted"
   ],
   "note": "Refuted: columns are replaced in the data frame of the caller, even if nothing is written. Proved if there is nothing to convert."
  },
  {
   "property": "C331",
   "status": "partial",
   "theorems": [
    "C331_export_partial",
    "C331_fails",
    "C331_export_refuted"
   ],
   "note": "Refuted: only the first row decides, so complex objects are kept if it has a missing value. Proved if columns with complex objects start with one and only have missing values besides."
  },
  {
   "property": "C332",
   "status": "proved",
   "theorems": [
    "C332_formats",
    "C332_refused",
    "C332_written"
   ],
   "note": "pandas is not modelled, only the choice of the function."
  },
  {
   "property": "C333",
   "status": "partial",
   "theorems": [
    "C333_run_partial",
    "C333_directory",
    "C333_run_refuted",
    "C333_result"
   ],
   "note": "Refuted: if the command cannot be started (or subprocess.run raises for other reasons), the current directory stays changed; commands given as tuples or iterators raise a TypeError. Proved for texts and non-empty lists that can be run; see C336."
  },
  {
   "property": "C334",
   "status": "proved",
   "theorems": [
    "C334_scores"
   ],
   "note": "Scores are integers."
  },
  {
   "property": "C335",
   "status": "proved",
   "theorems": [
    "C326_refused"
   ],
   "note": "Part of C326 that holds throughout."
  },
  {
   "property": "C336",
   "status": "proved",
   "theorems": [
    "C333_directory"
   ],
   "note": "Part of C333 that holds throughout."
  },
  {
   "property": "C337",
   "status": "partial",
   "theorems": [
    "C337_added",
    "C337_drawn_partial",
    "C337_drawn_refuted"
   ],
   "note": "Refuted: nodes are identified by their hash value, so nodes that look the same become one. Proved if the identifiers of all nodes are different; see C342."
  },
  {
   "property": "C338",
   "status": "proved",
   "theorems": [
    "C338_shown",
    "C338_complete"
   ],
   "note": ""
  },
  {
   "property": "C339",
   "status": "partial",
   "theorems": [
    "C339_lines_partial",
    "C339_lines_refuted"
   ],
   "note": "Refuted: lines without a counterpart are lost, and an empty first text raises a ValueError. Proved for texts with the same number of lines."
  },
  {
   "property": "C340",
   "status": "partial",
   "theorems": [
    "C340_fetch_partial",
    "C340_fetch_refuted",
    "C340_sound"
   ],
   "note": "Refuted: the documentation promises that case does not matter, but this only holds for \"ues\"."
  },
  {
   "property": "C341",
   "status": "partial",
   "theorems": [
    "C341_timeout_partial",
    "C341_timeout_refuted",
    "C341_finished"
   ],
   "note": "Refuted: if execute() raises an exception when it is interrupted (as DuckDB does), this is raised instead, and the runtime remains that of the query before. Proved if it returns normally; see C343."
  },
  {
   "property": "C342",
   "status": "proved",
   "theorems": [
    "C337_added"
   ],
   "note": "Part of C337 that holds throughout."
  },
  {
   "property": "C343",
   "status": "proved",
   "theorems": [
    "C341_finished"
   ],
   "note": "Part of C341 that holds throughout."
  },
  {
   "property": "C344",
   "status": "proved",
   "theorems": [
    "C344_messages"
   ],
   "note": "The shuffled order of each repetition and the outcome of the optimization are inputs."
  },
  {
   "property": "C345",
   "status": "partial",
   "theorems": [
    "C345_bars_partial",
    "C345_before",
    "C345_bars_refuted"
   ],
   "note": "Partial: the final next_workload_iter() resets the bar of queries, so that it is empty after each benchmark (C345_bars_refuted). The bar of workload repetitions is complete, and the one of query repetitions if the last query was optimized."
  },
  {
   "property": "C346",
   "status": "partial",
   "theorems": [
    "C346_log_partial",
    "C346_disabled",
    "C346_log_refuted"
   ],
   "note": "Partial: with pretty printing, the prefix is lost and calls without exactly one argument raise a TypeError (C346_log_refuted)."
  },
  {
   "property": "C347",
   "status": "partial",
   "theorems": [
    "C347_tee_partial",
    "C347_tee_refuted"
   ],
   "note": "Partial: print() with flush=True raises an AttributeError, since the replacement of sys.stdout does not have flush() (C347_tee_refuted)."
  },
  {
   "property": "C348",
   "status": "proved",
   "theorems": [
    "C348_stored"
   ],
   "note": "Labels are texts without path separators, as the type of the workload says."
  },
  {
   "property": "C349",
   "status": "proved",
   "theorems": [
    "C345_before"
   ],
   "note": "Companion of C345: the part that holds for all benchmarks."
  },
  {
   "property": "C350",
   "status": "proved",
   "theorems": [
    "C350_paths"
   ],
   "note": "For graphs without edges from a table to itself, as they are built from pairs of different tables."
  },
  {
   "property": "C351",
   "status": "proved",
   "theorems": [
    "C351_info"
   ],
   "note": ""
  },
  {
   "property": "C352",
   "status": "partial",
   "theorems": [
    "C352_lookup_partial",
    "C352_keys",
    "C352_lookup_refuted"
   ],
   "note": "Partial: the empty name raises a ValueError instead of a KeyError, also for the test of membership (C352_lookup_refuted). The listed columns are found if no two of them are equal (C352_keys)."
  },
  {
   "property": "C353",
   "status": "partial",
   "theorems": [
    "C353_label_partial",
    "C353_label_refuted"
   ],
   "note": "Partial: for nodes with a subplan, the label of the root of the subplan replaces the operator and the base table (C353_label_refuted)."
  },
  {
   "property": "C354",
   "status": "partial",
   "theorems": [
    "C354_cost_partial",
    "C354_cost_refuted"
   ],
   "note": "Partial: without a database, the pool itself is used as database and an AttributeError is raised (C354_cost_refuted)."
  },
  {
   "property": "C355",
   "status": "proved",
   "theorems": [
    "C355_drawing"
   ],
   "note": "For graphs with one edge per pair of different tables, as the constructor builds them. If both sides of a join are primary keys, the direction is one of the two."
  },
  {
   "property": "C356",
   "status": "partial",
   "theorems": [
    "C356_query_partial",
    "C356_query_refuted"
   ],
   "note": "Partial: by default the class of graphs is used instead of an instance, so that drawing any query with joins raises a TypeError (C356_query_refuted). With include_pk_fk_joins the drawing is as documented; joins over several columns have no direction."
  },
  {
   "property": "C357",
   "status": "proved",
   "theorems": [
    "C357_annotations"
   ],
   "note": ""
  },
  {
   "property": "C358",
   "status": "partial",
   "theorems": [
    "C358_escape_partial",
    "C358_brackets",
    "C358_escape_refuted"
   ],
   "note": "Partial: ampersands are not escaped, so that the texts '&lt;' and '<' have the same label and labels like 'a & b' cannot be read (C358_escape_refuted)."
  },
  {
   "property": "C359",
   "status": "proved",
   "theorems": [
    "C358_brackets"
   ],
   "note": "Companion of C358: the part that holds for all texts."
  },
  {
   "property": "C360",
   "status": "partial",
   "theorems": [
    "C360_grid_partial",
    "C360_grid_refuted"
   ],
   "note": "Partial: with fewer labels than columns, or with one column, the array of axes has fewer dimensions than expected and a TypeError is raised; without labels a ValueError (C360_grid_refuted). Otherwise the grid is as documented."
  },
  {
   "property": "C361",
   "status": "proved",
   "theorems": [
    "C361_distances"
   ],
   "note": "For different elements; the coordinates that the graph library computes from the distances are not modelled."
  },
  {
   "property": "C362",
   "status": "proved",
   "theorems": [
    "C362_attractions"
   ],
   "note": "The coordinates that the graph library computes are not modelled."
  },
  {
   "property": "C363",
   "status": "proved",
   "theorems": [
    "C363_mapping"
   ],
   "note": "Expressions are opaque; frozensets are lists in a normal form."
  },
  {
   "property": "C364",
   "status": "proved",
   "theorems": [
    "C364_walk"
   ],
   "note": ""
  },
  {
   "property": "C365",
   "status": "partial",
   "theorems": [
    "C365_hash_partial",
    "C365_hash_refuted"
   ],
   "note": "Partial: the data of edges are dictionaries, so that hashing a walk that used an edge raises a TypeError (C365_hash_refuted). Walks that only jump can be hashed."
  },
  {
   "property": "C366",
   "status": "proved",
   "theorems": [
    "C366_estimates"
   ],
   "note": ""
  },
  {
   "property": "C367",
   "status": "partial",
   "theorems": [
    "C367_paired_partial",
    "C367_paired_refuted"
   ],
   "note": "Partial: setup_for_query() initializes the estimator for the next query without a cleanup (C367_paired_refuted). With one setup, all calls are paired."
  },
  {
   "property": "C368",
   "status": "partial",
   "theorems": [
    "C368_types_refuted",
    "C368_char_refuted",
    "C368_types_partial"
   ],
   "note": "Partial: the schema of a type is dropped, so that types with the same name in different schemas become the same type (C368_types_refuted), and the one-byte type \"char\" becomes char, as does bpchar (C368_char_refuted). Names that are not themselves standard names of other types are kept apart."
  },
  {
   "property": "C369",
   "status": "proved",
   "theorems": [
    "C369_formats"
   ],
   "note": ""
  },
  {
   "property": "C370",
   "status": "proved",
   "theorems": [
    "C370_operators"
   ],
   "note": ""
  },
  {
   "property": "C371",
   "status": "proved",
   "theorems": [
    "C371_case_value",
    "C371_case_total"
   ],
   "note": "The parser of the parts is an argument; the theorem on values assumes that it keeps values."
  },
  {
   "property": "C372",
   "status": "partial",
   "theorems": [
    "C372_normalize_partial"
   ],
   "note": "Partial: assumes that tables() and the renaming of columns reach all columns of the predicate; C05 and C13 give the expressions for which they do not."
  },
  {
   "property": "C373",
   "status": "partial",
   "theorems": [
    "C373_same_partial",
    "C373_only_partial"
   ],
   "note": "Partial: assumes the same as C372."
  }
 ]
}