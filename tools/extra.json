{
"C135": [
"C01_split_stronger",
"C01_joins_join",
"C01_filters_no_join",
"C01_comparison_filter_one_table"
],
"C136": [
"C06_equivalence",
"C06_meaning"
],
"C137": [
"C09_connectivity",
"C09_singleton",
"C08_symmetric"
],
"C138": [
"C11_classes",
"C11_all_equalities"
],
"C139": [
"C12_tables"
],
"C140": [
"C16_equality",
"C16_built_fits",
"C16_drop_clause",
"C16_drop_required_raises",
"C16_replace_clause",
"C16_replace_order_irrelevant",
"C16_add_mixing_raises"
],
"C141": [
"C17_generic_text"
],
"C142": [
"C19_quote_characterization",
"C19_quote_injective"
],
"C143": [
"C21_complete",
"C21_disconnected",
"C20_order_independent",
"C20_setting"
],
"C144": [
"C22_pk_fk"
],
"C145": [
"C23_bushy",
"C23_base_table",
"C23_linear"
],
"C146": [
"C29_merge",
"C29_merge_get",
"C29_wf",
"C29_errors",
"C29_global",
"C29_intermediates",
"C29_global_only",
"C29_independent"
],
"C147": [
"C30_setters",
"C30_drop_workers"
],
"C148": [
"C31_pglab_only_assigned",
"C31_pglab_total",
"C31_pglab_unsupported"
],
"C149": [
"C32_below_range",
"C32_below_monotone",
"C32_extremes"
],
"C150": [
"C35_kept_were_offered",
"C35_subsumption_is_sound",
"C35_cheapest_is_minimal"
],
"C151": [
"C36_eq_same",
"C36_eq_raises",
"C36_min",
"C37_hash",
"C37_hash_distinct",
"C37_division",
"C37_remainder",
"C37_remainder_special"
],
"C152": [
"C38_sized_queue_most_recent",
"C38_sized_queue_capacity"
],
"C153": [
"C40_no_lost_update",
"C40_linearizable"
],
"C154": [
"C44_merge_default",
"C44_merge_updater",
"C44_intersection",
"C44_difference",
"C44_generate_multi",
"C44_aggregate",
"C44_argmin",
"C44_argmax"
],
"C155": [
"C45_compound_query",
"C45_compound_reasons"
],
"C156": [
"C46_incremental",
"C46_textbook_rebuild",
"C46_multi_rebuild",
"C68_integrated"
],
"C157": [
"C49_agree",
"C49_select",
"C49_algebra",
"C49_first",
"C49_random"
],
"C158": [
"C52_result",
"C52_timeout_sound",
"C52_timeout_complete",
"C52_error_sound",
"C52_result_sound",
"C52_protocol",
"C52_traces"
],
"C159": [
"C56_random_walk",
"C56_frontier_walks"
],
"C160": [
"C57_gone",
"C57_absent",
"C57_conjunct"
],
"C161": [
"C58_table_eq_hash",
"C58_column_eq_hash",
"C58_table_eq_spec",
"C58_table_order",
"C58_column_order_spec",
"C58_column_order",
"C58_drop_alias",
"C58_make_virtual"
],
"C162": [
"C59_abbreviations"
],
"C163": [
"C62_constructors"
],
"C164": [
"C66_exact",
"C66_disconnected"
],
"C165": [
"C67_equi",
"C67_inner_sound",
"C67_inner_reports"
],
"C166": [
"C72_shapes",
"C51_single_column"
],
"C167": [
"C78_compatible_reflexive_symmetric",
"C78_merge",
"C78_equal_keys_interchangeable",
"C78_single_column"
],
"C168": [
"C79_as_explain",
"C79_as_explain_idempotent",
"C79_drop_hints",
"C79_drop_hints_unhinted"
],
"C169": [
"C81_iternodes",
"C81_iteration",
"C81_iternodes_length",
"C81_depth",
"C81_tables"
],
"C170": [
"C82_bushy_not_linear",
"C82_root_only"
],
"C171": [
"C84_equivalence",
"C84_hash",
"C85_with_actual",
"C83_total"
],
"C172": [
"C87_join_tree",
"C87_operators",
"C87_operators_defined",
"C87_parameters",
"C87_target_cardinality"
],
"C173": [
"C90_tables",
"C90_item"
],
"C174": [
"C96_equivalence",
"C96_equal_meaning",
"C95_copy",
"C91_order"
],
"C175": [
"C99_all_intermediates",
"C99_estimates",
"C99_join_order"
],
"C176": [
"C101_lookup",
"C101_default",
"C101_live"
],
"C177": [
"C105_bottomup",
"C105_bottomup_one"
],
"C178": [
"C111_conform_to",
"C111_as_df_rejects",
"C111_merge_with_rejects",
"C111_from_df"
],
"C179": [
"C112_retrieve_all",
"C112_retrieve_first",
"C112_retrieve_merged_none"
],
"C180": [
"C113_complete_classes",
"C113_incomplete_classes",
"C113_train",
"C113_nothing_to_do",
"C113_missing_samples"
],
"C181": [
"C114_sound",
"C116_operators"
],
"C182": [
"C117_sound",
"C118_subset",
"C119_sound",
"C120_disjoint"
],
"C183": [
"C121_conjunction"
],
"C184": [
"C125_quick",
"C125_quick_explain"
],
"C185": [
"C126_total",
"C126_errors",
"C126_no_new_tables"
],
"C186": [
"C128_equivalence",
"C128_same_tables",
"C128_other_counts"
],
"C187": [
"C129_sound",
"C129_choice",
"C130_total"
],
"C188": [
"C131_supported",
"C131_plans"
],
"C189": [
"C133_supported",
"C133_supports",
"C132_sound"
],
"C190": [
"C134_snake",
"C134_injective",
"C134_missing"
],
"C194": [
"C192_draw",
"C192_no_operators",
"C192_new"
],
"C195": [
"C191_allowed",
"C193_final"
],
"C198": [
"C196_join_order",
"C196_order_determined",
"C196_operators",
"C196_cardinalities",
"C196_workers"
],
"C204": [
"C199_postgres_exact",
"C199_postgres_exclusive"
],
"C205": [
"C199_generic_complete"
],
"C206": [
"C200_mysql",
"C200_postgres_complete"
],
"C207": [
"C203_mysql_lookup",
"C203_postgres_sound"
],
"C212": [
"C208_tables",
"C208_joined",
"C208_star"
],
"C213": [
"C211_components"
],
"C219": [
"C218_filters"
],
"C226": [
"C220_none",
"C220_projected",
"C221_lists",
"C221_conjuncts"
],
"C236": [
"C233_owner",
"C233_clash",
"C235_unique",
"C235_labels"
],
"C250": [
"C249_remove_marked"
],
"C253": [
"C251_history",
"C251_current_database",
"C252_precedence"
],
"C258": [
"C257_wrap",
"C257_wrap_all",
"C257_partners",
"C254_exists"
],
"C280": [
"C271_columns"
],
"C281": [
"C272_prewarm"
],
"C282": [
"C268_coherent",
"C268_priority"
],
"C283": [
"C275_names"
],
"C284": [
"C279_visitor"
],
"C285": [
"C242_shape",
"C242_renamed"
],
"C286": [
"C239_meaning"
],
"C309": [
"C279_sound",
"C279_no_table",
"C279_visitor"
],
"C310": [
"C289_current",
"C289_only_listed"
],
"C311": [
"C287_refused"
],
"C322": [
"C318_format"
],
"C323": [
"C319_refused"
],
"C324": [
"C320_sound"
],
"C325": [
"C317_warning"
],
"C335": [
"C326_refused"
],
"C336": [
"C333_directory"
],
"C342": [
"C337_added"
],
"C343": [
"C341_finished"
],
"C349": [
"C345_before"
],
"C359": [
"C358_brackets"
]
}