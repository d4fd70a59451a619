{
 "claims": [
  {
   "property": "C01",
   "status": "proved",
   "theorems": [
    "C01_reference_parsing",
    "C01_trailing_hyphen_is_range"
   ],
   "note": ""
  },
  {
   "property": "C02",
   "status": "proved",
   "theorems": [
    "C02_equality_is_string_equality",
    "C02_constructors_agree",
    "C02_rebuilding_from_tuple",
    "C02_tuple_without_end"
   ],
   "note": ""
  },
  {
   "property": "C03",
   "status": "proved",
   "theorems": [
    "C03_read_written",
    "C03_write_read",
    "C03_word",
    "C03_depth_is_number_of_levels_refuted"
   ],
   "note": ""
  },
  {
   "property": "C04",
   "status": "proved",
   "theorems": [
    "C04_parent_of_top_level",
    "C04_parent_drops_last_level",
    "C04_parent_chain_ends",
    "C04_parent_chain_prefix",
    "C04_parent_of_range",
    "C04_parent_of_mixed_range",
    "C04_dotted_word_parent_refuted"
   ],
   "note": ""
  },
  {
   "property": "C05",
   "status": "proved",
   "theorems": [
    "C05_highest",
    "C05_depth"
   ],
   "note": ""
  },
  {
   "property": "C06",
   "status": "proved",
   "theorems": [
    "C06_word_and_counter",
    "C06_word_alone"
   ],
   "note": ""
  },
  {
   "property": "C07",
   "status": "proved",
   "theorems": [
    "C07_accepts",
    "C07_only_ValueError",
    "C07_lossless"
   ],
   "note": ""
  },
  {
   "property": "C08",
   "status": "proved",
   "theorems": [
    "C08_components",
    "C08_composition_accepted",
    "C08_fourth_component_lost",
    "C08_further_components_lost"
   ],
   "note": ""
  },
  {
   "property": "C09",
   "status": "proved",
   "theorems": [
    "C09_truncation",
    "C09_absent_component",
    "C09_passage_keys",
    "C09_prefix_refuted",
    "C09_scheme"
   ],
   "note": ""
  },
  {
   "property": "C10",
   "status": "proved",
   "theorems": [
    "C10_history_components",
    "C10_history_str",
    "C10_history_upto",
    "C10_reassigning_changes_nothing",
    "C10_reassigning_refuted"
   ],
   "note": ""
  },
  {
   "property": "C11",
   "status": "proved",
   "theorems": [
    "C11_equality",
    "C11_order"
   ],
   "note": ""
  },
  {
   "property": "C12",
   "status": "proved",
   "theorems": [
    "C12_fill_list",
    "C12_fill_reference",
    "C12_fill_none",
    "C12_fill_xpath",
    "C12_backslash_refuted"
   ],
   "note": ""
  },
  {
   "property": "C13",
   "status": "proved",
   "theorems": [
    "C13_setting",
    "C13_views",
    "C13_setters"
   ],
   "note": ""
  },
  {
   "property": "C14",
   "status": "proved",
   "theorems": [
    "C14_listing",
    "C14_index",
    "C14_match"
   ],
   "note": ""
  },
  {
   "property": "C15",
   "status": "proved",
   "theorems": [
    "C15_ingest",
    "C15_nested_refuted",
    "C15_no_pattern"
   ],
   "note": ""
  },
  {
   "property": "C16",
   "status": "proved",
   "theorems": [
    "C16_listing",
    "C16_depth",
    "C16_positions_exist",
    "C16_levels",
    "C16_negative",
    "C16_citation_negative_refuted"
   ],
   "note": ""
  },
  {
   "property": "C17",
   "status": "proved",
   "theorems": [
    "C17_ingest_export",
    "C17_export",
    "C17_without_set"
   ],
   "note": ""
  },
  {
   "property": "C18",
   "status": "proved",
   "theorems": [
    "C18_whole",
    "C18_below"
   ],
   "note": ""
  },
  {
   "property": "C19",
   "status": "proved",
   "theorems": [
    "C19_once",
    "C19_order",
    "C19_repeated",
    "C19_repeated_refuted"
   ],
   "note": ""
  },
  {
   "property": "C20",
   "status": "proved",
   "theorems": [
    "C20_range",
    "C20_single",
    "C20_unknown_reference",
    "C20_unknown_single",
    "C20_root_ignored_refuted",
    "C20_extraction",
    "C20_lines_faithful",
    "C20_unknown",
    "C20_inverted",
    "C20_text_between_refuted"
   ],
   "note": ""
  },
  {
   "property": "C21",
   "status": "proved",
   "theorems": [
    "C21_range",
    "C21_objectified",
    "C21_start_early_refuted",
    "C21_end_lost_refuted"
   ],
   "note": ""
  },
  {
   "property": "C22",
   "status": "proved",
   "theorems": [
    "C22_listed",
    "C22_not_one",
    "C22_single"
   ],
   "note": ""
  },
  {
   "property": "C23",
   "status": "proved",
   "theorems": [
    "C23_siblings",
    "C23_inverse",
    "C23_walk",
    "C23_next",
    "C23_prev",
    "C23_next_next_refuted",
    "C23_simple"
   ],
   "note": ""
  },
  {
   "property": "C24",
   "status": "proved",
   "theorems": [
    "C24_windows",
    "C24_degenerate_refuted",
    "C24_simple_refuted"
   ],
   "note": ""
  },
  {
   "property": "C25",
   "status": "proved",
   "theorems": [
    "C25_range",
    "C25_range_units",
    "C25_end_contains_start",
    "C25_level_zero_refuted"
   ],
   "note": ""
  },
  {
   "property": "C26",
   "status": "proved",
   "theorems": [
    "C26_urn",
    "C26_no_version"
   ],
   "note": ""
  },
  {
   "property": "C27",
   "status": "proved",
   "theorems": [
    "C27_get",
    "C27_item",
    "C27_set",
    "C27_add",
    "C27_remove",
    "C27_frame",
    "C27_language",
    "C27_language_error",
    "C27_export_all",
    "C27_exclude",
    "C27_only",
    "C27_export_json",
    "C27_export_json_keys",
    "C27_only_string_refuted",
    "C27_only_argument_refuted",
    "C27_only_shared",
    "C27_only_shared_refuted",
    "C27_json_text_refuted",
    "C27_literal_language_refuted"
   ],
   "note": ""
  },
  {
   "property": "C28",
   "status": "proved",
   "theorems": [
    "C28_single_language",
    "C28_single_any",
    "C28_label",
    "C28_set_label",
    "C28_cts_property",
    "C28_cts_property_table",
    "C28_set_cts_property",
    "C28_not_literal_refuted"
   ],
   "note": ""
  },
  {
   "property": "C29",
   "status": "proved",
   "theorems": [
    "C29_contains",
    "C29_getitem",
    "C29_agree",
    "C29_getitem_error",
    "C29_contains_error",
    "C29_deep_refuted"
   ],
   "note": ""
  },
  {
   "property": "C30",
   "status": "proved",
   "theorems": [
    "C30_parent",
    "C30_members",
    "C30_registered",
    "C30_kept",
    "C30_parents",
    "C30_parents_only",
    "C30_statements",
    "C30_type",
    "C30_move_refuted",
    "C30_none_refuted",
    "C30_same_id_refuted",
    "C30_cycle_refuted"
   ],
   "note": ""
  },
  {
   "property": "C31",
   "status": "proved",
   "theorems": [
    "C31_delete",
    "C31_statements",
    "C31_unknown",
    "C31_container_refuted",
    "C31_below_refuted",
    "C31_itself_refuted"
   ],
   "note": ""
  },
  {
   "property": "C32",
   "status": "proved",
   "theorems": [
    "C32_descendants",
    "C32_below",
    "C32_answers",
    "C32_readable",
    "C32_len",
    "C32_repeated_refuted"
   ],
   "note": ""
  },
  {
   "property": "C33",
   "status": "proved",
   "theorems": [
    "C33_work",
    "C33_work_errors",
    "C33_textgroup",
    "C33_textgroup_errors",
    "C33_twice",
    "C33_graph_refuted"
   ],
   "note": ""
  },
  {
   "property": "C34",
   "status": "proved",
   "theorems": [
    "C34_dispatch",
    "C34_one",
    "C34_default"
   ],
   "note": ""
  },
  {
   "property": "C35",
   "status": "proved",
   "theorems": [
    "C35_page",
    "C35_partition",
    "C35_pages",
    "C35_beyond",
    "C35_whole",
    "C35_first",
    "C35_after_full_refuted",
    "C35_none_refuted",
    "C35_from_end_refuted",
    "C35_next_refuted",
    "C35_empty_refuted",
    "C35_negative_refuted"
   ],
   "note": ""
  },
  {
   "property": "C36",
   "status": "proved",
   "theorems": [
    "C36_listing",
    "C36_metadata",
    "C36_unknown",
    "C36_inventories",
    "C36_namespace_refuted",
    "C36_language_refuted"
   ],
   "note": ""
  },
  {
   "property": "C37",
   "status": "proved",
   "theorems": [
    "C37_version",
    "C37_reference",
    "C37_work",
    "C37_short",
    "C37_other_work_refuted",
    "C37_translation_refuted"
   ],
   "note": ""
  },
  {
   "property": "C38",
   "status": "proved",
   "theorems": [
    "C38_pages",
    "C38_breaks",
    "C38_endless",
    "C38_single_refuted",
    "C38_number_refuted"
   ],
   "note": ""
  },
  {
   "property": "C39",
   "status": "proved",
   "theorems": [
    "C39_children",
    "C39_after",
    "C39_once",
    "C39_parents",
    "C39_open",
    "C39_parents_first_refuted",
    "C39_held_refuted",
    "C39_twice_refuted",
    "C39_zero_based_refuted"
   ],
   "note": ""
  },
  {
   "property": "C40",
   "status": "proved",
   "theorems": [
    "C40_cts_requests",
    "C40_cts_passages",
    "C40_cts_siblings",
    "C40_cts_metadata",
    "C40_cts_reffs",
    "C40_dts_requests",
    "C40_routes",
    "C40_host_refuted",
    "C40_semicolon_refuted",
    "C40_entry",
    "C40_given_refuted"
   ],
   "note": ""
  },
  {
   "property": "C41",
   "status": "proved",
   "theorems": [
    "C41_normalize",
    "C41_no_double_space",
    "C41_other_characters",
    "C41_unchanged",
    "C41_idempotent"
   ],
   "note": ""
  },
  {
   "property": "C42",
   "status": "proved",
   "theorems": [
    "C42_export_text",
    "C42_export_passage",
    "C42_export_leaf",
    "C42_export_level_refuted",
    "C42_set_get",
    "C42_others",
    "C42_get",
    "C42_history",
    "C42_history_runs",
    "C42_through_value",
    "C42_in_order",
    "C42_order_refuted"
   ],
   "note": ""
  },
  {
   "property": "C43",
   "status": "proved",
   "theorems": [
    "C43_exact",
    "C43_closure",
    "C43_dts_graph",
    "C43_sound",
    "C43_ends",
    "C43_depth_refuted",
    "C43_literal_refuted",
    "C43_recursion_refuted",
    "C43_bindings_refuted"
   ],
   "note": ""
  },
  {
   "property": "C44",
   "status": "proved",
   "theorems": [
    "C44_library_mro",
    "C44_chosen",
    "C44_refused",
    "C44_capacities",
    "C44_single_inheritance",
    "C44_library_linear",
    "C44_library_covered",
    "C44_unhandled_refuted",
    "C44_duplicates_refuted"
   ],
   "note": ""
  },
  {
   "property": "C45",
   "status": "proved",
   "theorems": [
    "C45_read_back",
    "C45_text",
    "C45_no_markup",
    "C45_injective",
    "C45_pieces",
    "C45_attributes_refuted",
    "C45_carriage_return_refuted",
    "C45_line_ends"
   ],
   "note": ""
  },
  {
   "property": "C46",
   "status": "proved",
   "theorems": [
    "C46_membership",
    "C46_position",
    "C46_missing"
   ],
   "note": ""
  },
  {
   "property": "C47",
   "status": "proved",
   "theorems": [
    "C47_text_requests",
    "C47_passage_requests",
    "C47_second_reference_refuted",
    "C47_text_siblings_refuted",
    "C47_levels",
    "C47_resolver",
    "C47_references",
    "C47_first",
    "C47_prevnext",
    "C47_identifiers_unique",
    "C47_known_siblings",
    "C47_asked_siblings"
   ],
   "note": ""
  },
  {
   "property": "C48",
   "status": "proved",
   "theorems": [
    "C48_pagination",
    "C48_first_field_refuted"
   ],
   "note": ""
  },
  {
   "property": "C49",
   "status": "proved",
   "theorems": [
    "C49_document",
    "C49_parent_refuted"
   ],
   "note": ""
  },
  {
   "property": "C50",
   "status": "proved",
   "theorems": [
    "C50_plain",
    "C50_default",
    "C50_whole",
    "C50_unknown_prefix",
    "C50_word_refuted"
   ],
   "note": ""
  },
  {
   "property": "C51",
   "status": "proved",
   "theorems": [
    "C51_attribute"
   ],
   "note": ""
  },
  {
   "property": "C52",
   "status": "proved",
   "theorems": [
    "C52_equality",
    "C52_hand_made_refuted"
   ],
   "note": ""
  },
  {
   "property": "C53",
   "status": "proved",
   "theorems": [
    "C53_children",
    "C53_ends",
    "C53_parent_refuted"
   ],
   "note": ""
  },
  {
   "property": "C54",
   "status": "proved",
   "theorems": [
    "C54_given_language",
    "C54_inherited_language",
    "C54_no_language_error",
    "C54_translations",
    "C54_siblings",
    "C54_equality",
    "C54_none_refuted",
    "C54_inventories_refuted"
   ],
   "note": ""
  },
  {
   "property": "C55",
   "status": "proved",
   "theorems": [
    "C55_expanded",
    "C55_unchanged",
    "C55_local_name_refuted"
   ],
   "note": ""
  },
  {
   "property": "C56",
   "status": "proved",
   "theorems": [
    "C56_collection",
    "C56_http",
    "C56_nested_error",
    "C56_nested_refuted",
    "C56_unique",
    "C56_required",
    "C56_http_required",
    "C56_resource_refuted"
   ],
   "note": ""
  },
  {
   "property": "C57",
   "status": "proved",
   "theorems": [
    "C57_accepts",
    "C57_structure",
    "C57_parts",
    "C57_frame",
    "C57_statements",
    "C57_languages",
    "C57_edition_language_refuted",
    "C57_duplicate_refuted",
    "C57_title_refuted",
    "C57_two_languages_refuted",
    "C57_shared_refuted"
   ],
   "note": ""
  },
  {
   "property": "C58",
   "status": "proved",
   "theorems": [
    "C58_round_trip",
    "C58_original",
    "C58_no_statement_refuted",
    "C58_edition_language_refuted",
    "C58_unknown_refuted",
    "C58_no_language_refuted",
    "C58_ampersand_refuted",
    "C58_citation_refuted"
   ],
   "note": ""
  },
  {
   "property": "C59",
   "status": "proved",
   "theorems": [
    "C59_loading",
    "C59_undispatched",
    "C59_latest",
    "C59_where",
    "C59_found",
    "C59_library",
    "C59_default",
    "C59_unreadable",
    "C59_lenient_refuted",
    "C59_one_step_refuted",
    "C59_repeats_refuted",
    "C59_path_refuted"
   ],
   "note": ""
  },
  {
   "property": "C60",
   "status": "proved",
   "theorems": [
    "C60_references",
    "C60_below",
    "C60_passage",
    "C60_range",
    "C60_whole",
    "C60_unknown_reference",
    "C60_siblings",
    "C60_work",
    "C60_loaded",
    "C60_no_file",
    "C60_bad_file",
    "C60_no_folder"
   ],
   "note": ""
  },
  {
   "property": "C61",
   "status": "proved",
   "theorems": [
    "C61_copied",
    "C61_getters",
    "C61_resolver",
    "C61_unplaced",
    "C61_label",
    "C61_request",
    "C61_plus",
    "C61_reffs",
    "C61_language_refuted",
    "C61_citation_refuted"
   ],
   "note": ""
  },
  {
   "property": "C62",
   "status": "proved",
   "theorems": [
    "C62_lookup",
    "C62_inventory",
    "C62_refused",
    "C62_unknown_refuted"
   ],
   "note": ""
  },
  {
   "property": "C63",
   "status": "proved",
   "theorems": [
    "C63_round_trip",
    "C63_unset",
    "C63_quotes_refuted",
    "C63_name_refuted"
   ],
   "note": ""
  },
  {
   "property": "C64",
   "status": "proved",
   "theorems": [
    "C64_round_trip",
    "C64_http",
    "C64_only",
    "C64_typed",
    "C64_unlabelled_refuted",
    "C64_type_refuted",
    "C64_link_refuted",
    "C64_readable",
    "C64_one_link_refuted",
    "C64_descriptions_refuted",
    "C64_flat_refuted"
   ],
   "note": ""
  },
  {
   "property": "C65",
   "status": "proved",
   "theorems": [
    "C65_round_trip",
    "C65_faithful",
    "C65_datatype_refuted",
    "C65_text_refuted",
    "C65_parent_refuted",
    "C65_inventory_refuted",
    "C65_edition_language_refuted"
   ],
   "note": ""
  },
  {
   "property": "C66",
   "status": "proved",
   "theorems": [
    "C66_reads",
    "C66_equal",
    "C66_not_a_pair",
    "C66_different",
    "C66_different_refuted",
    "C66_copy_refuted",
    "C66_set",
    "C66_text_refuted",
    "C66_single_refuted",
    "C66_one_argument",
    "C66_sets_equal",
    "C66_copy_set",
    "C66_deep_copy_refuted",
    "C66_comparison_refuted"
   ],
   "note": ""
  },
  {
   "property": "C67",
   "status": "proved",
   "theorems": [
    "C67_node",
    "C67_request",
    "C67_collection_request",
    "C67_history",
    "C67_travel",
    "C67_collection",
    "C67_known",
    "C67_collection_link_refuted",
    "C67_reffs",
    "C67_level_refuted",
    "C67_children",
    "C67_single_child_refuted",
    "C67_parent_refuted"
   ],
   "note": ""
  },
  {
   "property": "C68",
   "status": "proved",
   "theorems": [
    "C68_sound",
    "C68_copy",
    "C68_others",
    "C68_again",
    "C68_independent",
    "C68_original",
    "C68_deepcopy",
    "C68_same_equal",
    "C68_equal",
    "C68_plain_refuted",
    "C68_addition_refuted",
    "C68_deletion_refuted"
   ],
   "note": ""
  },
  {
   "property": "C69",
   "status": "proved",
   "theorems": [
    "C69_travels",
    "C69_walk",
    "C69_remembered",
    "C69_unknown_refuted",
    "C69_parent_refuted",
    "C69_last_refuted"
   ],
   "note": ""
  },
  {
   "property": "C70",
   "status": "proved",
   "theorems": [
    "C70_statements",
    "C70_read",
    "C70_assigned",
    "C70_untouched",
    "C70_dublin_core",
    "C70_creator_refuted",
    "C70_number",
    "C70_shared_refuted",
    "C70_type_link_refuted"
   ],
   "note": ""
  },
  {
   "property": "C71",
   "status": "proved",
   "theorems": [
    "C71_round_trip",
    "C71_repeated_refuted",
    "C71_capitains_refuted",
    "C71_dts",
    "C71_dts_one_refuted",
    "C71_dts_none_refuted",
    "C71_dts_link_refuted"
   ],
   "note": ""
  },
  {
   "property": "C72",
   "status": "proved",
   "theorems": [
    "C72_answer",
    "C72_unknown",
    "C72_kept",
    "C72_statements",
    "C72_languages",
    "C72_history",
    "C72_loaded"
   ],
   "note": ""
  },
  {
   "property": "C73",
   "status": "proved",
   "theorems": [
    "C73_statements",
    "C73_own",
    "C73_told",
    "C73_languages",
    "C73_answers",
    "C73_editions",
    "C73_fit",
    "C73_questions",
    "C73_default",
    "C73_later_title_refuted",
    "C73_earlier_label_refuted"
   ],
   "note": ""
  },
  {
   "property": "C74",
   "status": "proved",
   "theorems": [
    "C74_memory",
    "C74_session",
    "C74_determined",
    "C74_reffs",
    "C74_beside_refuted",
    "C74_beside_children_refuted",
    "C74_beside_reads_refuted",
    "C74_parent_refuted",
    "C74_assigned_refuted",
    "C74_levels_refuted"
   ],
   "note": ""
  },
  {
   "property": "C75",
   "status": "proved",
   "theorems": [
    "C75_same",
    "C75_whole",
    "C75_below",
    "C75_clear",
    "C75_test",
    "C75_duplicate_refuted",
    "C75_empty_above_refuted",
    "C75_dot_refuted"
   ],
   "note": ""
  },
  {
   "property": "C76",
   "status": "proved",
   "theorems": [
    "C76_part",
    "C76_part_metadata",
    "C76_tree",
    "C76_edition_language_refuted"
   ],
   "note": ""
  },
  {
   "property": "C77",
   "status": "proved",
   "theorems": [
    "C77_sound",
    "C77_new",
    "C77_new_set",
    "C77_new_root_refuted",
    "C77_assign",
    "C77_assign_error",
    "C77_assign_atomic_refuted",
    "C77_child",
    "C77_no_child",
    "C77_add",
    "C77_add_other",
    "C77_add_others",
    "C77_add_root_refuted",
    "C77_reading",
    "C77_level",
    "C77_level_error",
    "C77_depth",
    "C77_last_level",
    "C77_last_level_refuted",
    "C77_circular",
    "C77_itself_refuted",
    "C77_copy",
    "C77_others",
    "C77_again",
    "C77_independent",
    "C77_original",
    "C77_shallow",
    "C77_shallow_refuted"
   ],
   "note": ""
  },
  {
   "property": "C78",
   "status": "proved",
   "theorems": [
    "C78_told",
    "C78_kept",
    "C78_all",
    "C78_others",
    "C78_objects",
    "C78_asked",
    "C78_get",
    "C78_types",
    "C78_values",
    "C78_alike",
    "C78_size",
    "C78_size_told",
    "C78_no_size",
    "C78_readable",
    "C78_label",
    "C78_retrieve_known",
    "C78_retrieve",
    "C78_again",
    "C78_retrieve_once_refuted",
    "C78_status_refuted",
    "C78_failure_refuted",
    "C78_new_size_refuted",
    "C78_identifier_refuted"
   ],
   "note": ""
  },
  {
   "property": "C79",
   "status": "proved",
   "theorems": [
    "C79_stands",
    "C79_home",
    "C79_made",
    "C79_apart",
    "C79_switch",
    "C79_read",
    "C79_fields",
    "C79_fresh",
    "C79_implements",
    "C79_parent",
    "C79_places",
    "C79_outcome",
    "C79_get_or_refuted",
    "C79_text_graph_refuted",
    "C79_parent_graph_refuted",
    "C79_set_field_refuted",
    "C79_parent_refused_refuted"
   ],
   "note": ""
  },
  {
   "property": "C80",
   "status": "proved",
   "theorems": [
    "C80_answers",
    "C80_below",
    "C80_requests",
    "C80_once",
    "C80_settled",
    "C80_cycle_refuted",
    "C80_diamond_refuted",
    "C80_again_refuted",
    "C80_size_refuted",
    "C80_len_refuted",
    "C80_empty_refuted"
   ],
   "note": ""
  },
  {
   "property": "C81",
   "status": "proved",
   "theorems": [
    "C81_replies",
    "C81_one_answer",
    "C81_after",
    "C81_refused",
    "C81_assigned",
    "C81_shared",
    "C81_id_refuted",
    "C81_none_refuted",
    "C81_shared_refuted"
   ],
   "note": ""
  },
  {
   "property": "C82",
   "status": "proved",
   "theorems": [
    "C82_update",
    "C82_after",
    "C82_early_refuted",
    "C82_set",
    "C82_set_after",
    "C82_held_set_refuted",
    "C82_held_update_refuted",
    "C82_detached_refuted",
    "C82_no_document_refuted",
    "C82_assign_refuted",
    "C82_pop_refuted",
    "C82_parents",
    "C82_parents_after"
   ],
   "note": ""
  }
 ]
}