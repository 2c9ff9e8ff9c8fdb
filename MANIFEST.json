{
 "claims": [
  {
   "property": "C01",
   "status": "proved",
   "theorems": [
    "C01_namespace_of_path",
    "C01_path_of_namespace",
    "C01_namespace_of_attr_path",
    "C01_rendering",
    "C01_empty_namespace_refuted"
   ],
   "note": "Counterexamples to stronger or documented claims are kept as: C01_empty_namespace_refuted."
  },
  {
   "property": "C02",
   "status": "proved",
   "theorems": [
    "C02_attr_path_round_trip",
    "C02_attr_path_inverse",
    "C02_node_path_whole",
    "C02_no_period",
    "C02_trailing_period",
    "C02_projections",
    "C02_relative_node_path_refuted"
   ],
   "note": "Counterexamples to stronger or documented claims are kept as: C02_relative_node_path_refuted."
  },
  {
   "property": "C03",
   "status": "proved",
   "theorems": [
    "C03_parent_and_name",
    "C03_world",
    "C03_depth",
    "C03_root",
    "C03_join_many",
    "C03_join_absolute",
    "C03_paths_are_unambiguous",
    "C03_join_world_absolute_refuted"
   ],
   "note": "Counterexamples to stronger or documented claims are kept as: C03_join_world_absolute_refuted."
  },
  {
   "property": "C04",
   "status": "proved",
   "theorems": [
    "C04_ancestors_terminate",
    "C04_ancestors_exact"
   ],
   "note": ""
  },
  {
   "property": "C05",
   "status": "proved",
   "theorems": [
    "C05_is_ancestor",
    "C05_strict_refuted"
   ],
   "note": "Counterexamples to stronger or documented claims are kept as: C05_strict_refuted."
  },
  {
   "property": "C06",
   "status": "proved",
   "theorems": [
    "C06_trim_to_depth"
   ],
   "note": ""
  },
  {
   "property": "C07",
   "status": "proved",
   "theorems": [
    "C07_replace_ancestor",
    "C07_relative",
    "C07_old_world_refuted",
    "C07_unrelated_path_refuted"
   ],
   "note": "Counterexamples to stronger or documented claims are kept as: C07_old_world_refuted, C07_unrelated_path_refuted."
  },
  {
   "property": "C08",
   "status": "proved",
   "theorems": [
    "C08_relative_expansion",
    "C08_absolute_unchanged",
    "C08_parent_of_root_refuted",
    "C08_from_world_refuted"
   ],
   "note": "Counterexamples to stronger or documented claims are kept as: C08_parent_of_root_refuted, C08_from_world_refuted."
  },
  {
   "property": "C09",
   "status": "proved",
   "theorems": [
    "C09_token_content_round_trip",
    "C09_token_shape"
   ],
   "note": ""
  },
  {
   "property": "C10",
   "status": "proved",
   "theorems": [
    "C10_atomic_partition",
    "C10_nothing_found"
   ],
   "note": ""
  },
  {
   "property": "C11",
   "status": "proved",
   "theorems": [
    "C11_every_text_is_classified",
    "C11_reading_is_unique",
    "C11_standalone_tokens",
    "C11_standalone_tokens_of_types",
    "C11_unclosed",
    "C11_in_order",
    "C11_extra_end_refuted"
   ],
   "note": "Counterexamples to stronger or documented claims are kept as: C11_extra_end_refuted."
  },
  {
   "property": "C12",
   "status": "proved",
   "theorems": [
    "C12_terminates",
    "C12_sound",
    "C12_complete_without_nesting",
    "C12_complete_refuted"
   ],
   "note": "Counterexamples to stronger or documented claims are kept as: C12_complete_refuted."
  },
  {
   "property": "C13",
   "status": "proved",
   "theorems": [
    "C13_merge_permutation",
    "C13_merge_no_repeats",
    "C13_base_order_kept",
    "C13_subset_unchanged",
    "C13_disjoint_appended",
    "C13_extension_wins",
    "C13_single_new_name",
    "C13_overlay_order_refuted",
    "C13_before_matching_neighbour_refuted"
   ],
   "note": "Counterexamples to stronger or documented claims are kept as: C13_overlay_order_refuted, C13_before_matching_neighbour_refuted."
  },
  {
   "property": "C14",
   "status": "proved",
   "theorems": [
    "C14_stable_sort"
   ],
   "note": ""
  },
  {
   "property": "C15",
   "status": "proved",
   "theorems": [
    "C15_dirties_terminate",
    "C15_dirties_are_the_transitive_dependants",
    "C15_direct_dependants_first",
    "C15_history",
    "C15_no_repeats",
    "C15_self_first_refuted"
   ],
   "note": "Counterexamples to stronger or documented claims are kept as: C15_self_first_refuted."
  },
  {
   "property": "C16",
   "status": "proved",
   "theorems": [
    "C16_active_exact",
    "C16_active_member",
    "C16_mute_beats_solo",
    "C16_muted_by_override"
   ],
   "note": ""
  },
  {
   "property": "C17",
   "status": "proved",
   "theorems": [
    "C17_history_ok",
    "C17_muted",
    "C17_soloed",
    "C17_alias",
    "C17_color",
    "C17_locked",
    "C17_local",
    "C17_mute_over_read",
    "C17_solo_over_read",
    "C17_mute_over_frame",
    "C17_solo_over_frame",
    "C17_mute_over_keeps_solo",
    "C17_solo_over_keeps_mute_refuted",
    "C17_alias_over_effect",
    "C17_color_over_effect",
    "C17_alias_over_read",
    "C17_alias_over_top",
    "C17_lock_over_clears_refuted",
    "C17_lock_over_clear",
    "C17_lock_over_set"
   ],
   "note": "Counterexamples to stronger or documented claims are kept as: C17_solo_over_keeps_mute_refuted, C17_lock_over_clears_refuted."
  },
  {
   "property": "C18",
   "status": "proved",
   "theorems": [
    "C18_fresh_layers_ready",
    "C18_children",
    "C18_children_implied",
    "C18_children_ordered",
    "C18_child_order_loses_nothing",
    "C18_children_nodes_ordered",
    "C18_children_by_name",
    "C18_has_children",
    "C18_descendants",
    "C18_descendants_ordered",
    "C18_descendants_ordered_missing",
    "C18_descendants_of_world",
    "C18_string_identity_refuted",
    "C18_ordered_table_duplicates_refuted",
    "C18_gap_hides_descendants_refuted",
    "C18_descendant_nodes_refuted",
    "C18_descendant_table_corrupts_refuted",
    "C18_world_own_child_refuted"
   ],
   "note": "Counterexamples to stronger or documented claims are kept as: C18_string_identity_refuted, C18_ordered_table_duplicates_refuted, C18_gap_hides_descendants_refuted, C18_descendant_nodes_refuted, C18_descendant_table_corrupts_refuted, C18_world_own_child_refuted."
  },
  {
   "property": "C19",
   "status": "proved",
   "theorems": [
    "C19_comp_layer",
    "C19_spec_layer",
    "C19_remove_with_children_refuted",
    "C19_add_twice_refuted",
    "C19_comp_implied_refuted",
    "C19_spec_implied_refuted"
   ],
   "note": "Counterexamples to stronger or documented claims are kept as: C19_remove_with_children_refuted, C19_add_twice_refuted, C19_comp_implied_refuted, C19_spec_implied_refuted."
  },
  {
   "property": "C20",
   "status": "proved",
   "theorems": [
    "C20_exec_order",
    "C20_nothing_disabled_runs",
    "C20_starts_at_the_start",
    "C20_nothing_runs_twice",
    "C20_missing_start",
    "C20_chain_ends_or_never_returns",
    "C20_cycle_never_returns_refuted",
    "C20_disabled_root_refuted"
   ],
   "note": "Counterexamples to stronger or documented claims are kept as: C20_cycle_never_returns_refuted, C20_disabled_root_refuted."
  },
  {
   "property": "C21",
   "status": "proved",
   "theorems": [
    "C21_recorded_runs",
    "C21_was_during",
    "C21_run_time",
    "C21_exit_key_error",
    "C21_exit_value_error",
    "C21_reentrant_refuted"
   ],
   "note": "Counterexamples to stronger or documented claims are kept as: C21_reentrant_refuted."
  },
  {
   "property": "C22",
   "status": "proved",
   "theorems": [
    "C22_round_trip",
    "C22_save_again",
    "C22_through_file",
    "C22_file_order",
    "C22_attrs_sorted",
    "C22_falsy_value_lost_refuted",
    "C22_unwritable_value_lost_refuted",
    "C22_world_child_order_lost_refuted"
   ],
   "note": "Counterexamples to stronger or documented claims are kept as: C22_falsy_value_lost_refuted, C22_unwritable_value_lost_refuted, C22_world_child_order_lost_refuted."
  },
  {
   "property": "C23",
   "status": "proved",
   "theorems": [
    "C23_layer_round_trip",
    "C23_save_again",
    "C23_stable_after_one_trip",
    "C23_through_file",
    "C23_saved_data",
    "C23_loaded_fields",
    "C23_save_writes",
    "C23_muted_layer_refuted"
   ],
   "note": "Counterexamples to stronger or documented claims are kept as: C23_muted_layer_refuted."
  },
  {
   "property": "C24",
   "status": "proved",
   "theorems": [
    "C24_which_file",
    "C24_unknown_extension_refused",
    "C24_newer_refused",
    "C24_malformed_refused",
    "C24_current_untouched",
    "C24_older_converted",
    "C24_numbers_are_decimal",
    "C24_save_path",
    "C24_negative_major_refuted"
   ],
   "note": "Counterexamples to stronger or documented claims are kept as: C24_negative_major_refuted."
  },
  {
   "property": "C25",
   "status": "proved",
   "theorems": [
    "C25_terminates",
    "C25_each_step_once",
    "C25_converted",
    "C25_converts",
    "C25_nodes_kept",
    "C25_pre_release",
    "C25_too_old_refused",
    "C25_unlisted_nodes_lost_refuted",
    "C25_unrooted_node_lost_refuted",
    "C25_newer_never_ends_refuted",
    "C25_stops_at_1_16_refuted",
    "C25_pre_release_unpacks"
   ],
   "note": "Counterexamples to stronger or documented claims are kept as: C25_unlisted_nodes_lost_refuted, C25_unrooted_node_lost_refuted, C25_newer_never_ends_refuted, C25_stops_at_1_16_refuted."
  },
  {
   "property": "C26",
   "status": "proved",
   "theorems": [
    "C26_legalized",
    "C26_word_chars",
    "C26_legal_names_are_components",
    "C26_unique_node_name",
    "C26_unique_attr_name"
   ],
   "note": ""
  },
  {
   "property": "C27",
   "status": "proved",
   "theorems": [
    "C27_add",
    "C27_add_with_given_names",
    "C27_add_to_muted_layer_refuted",
    "C27_taken_name_overwrites_refuted"
   ],
   "note": "Counterexamples to stronger or documented claims are kept as: C27_add_to_muted_layer_refuted, C27_taken_name_overwrites_refuted."
  },
  {
   "property": "C28",
   "status": "proved",
   "theorems": [
    "C28_delete_subtree",
    "C28_no_gaps_in_closed_layers",
    "C28_delete_single",
    "C28_gap_refuted"
   ],
   "note": "Counterexamples to stronger or documented claims are kept as: C28_gap_refuted."
  },
  {
   "property": "C29",
   "status": "proved",
   "theorems": [
    "C29_rename",
    "C29_rename_any_layer",
    "C29_gap_left_behind_refuted",
    "C29_new_path_swallows_refuted",
    "C29_forced_name_overwrites_refuted",
    "C29_positions_below_stay_refuted"
   ],
   "note": "Counterexamples to stronger or documented claims are kept as: C29_gap_left_behind_refuted, C29_new_path_swallows_refuted, C29_forced_name_overwrites_refuted, C29_positions_below_stay_refuted."
  },
  {
   "property": "C30",
   "status": "proved",
   "theorems": [
    "C30_reparent",
    "C30_reparent_many",
    "C30_below_itself_refuted",
    "C30_same_parent_refuted"
   ],
   "note": "Counterexamples to stronger or documented claims are kept as: C30_below_itself_refuted, C30_same_parent_refuted."
  },
  {
   "property": "C31",
   "status": "proved",
   "theorems": [
    "C31_any_history",
    "C31_any_history_from",
    "C31_with_gaps_refuted"
   ],
   "note": "Counterexamples to stronger or documented claims are kept as: C31_with_gaps_refuted."
  },
  {
   "property": "C32",
   "status": "proved",
   "theorems": [
    "C32_loaded_fits",
    "C32_loaded_world_fits",
    "C32_conserved",
    "C32_strongest",
    "C32_silent",
    "C32_identity",
    "C32_child_order",
    "C32_builds",
    "C32_world_order_refuted"
   ],
   "note": "Counterexamples to stronger or documented claims are kept as: C32_world_order_refuted."
  },
  {
   "property": "C33",
   "status": "proved",
   "theorems": [
    "C33_internal",
    "C33_strongest_layer",
    "C33_parent",
    "C33_source",
    "C33_alone",
    "C33_either",
    "C33_parent_first",
    "C33_source_first"
   ],
   "note": ""
  },
  {
   "property": "C34",
   "status": "proved",
   "theorems": [
    "C34_instance_path",
    "C34_passed_on",
    "C34_not_passed_on",
    "C34_instance_path_overridden_refuted",
    "C34_ancestor_source_refuted"
   ],
   "note": "Counterexamples to stronger or documented claims are kept as: C34_instance_path_overridden_refuted, C34_ancestor_source_refuted."
  },
  {
   "property": "C35",
   "status": "proved",
   "theorems": [
    "C35_resolves",
    "C35_meaning_unique",
    "C35_plain_text",
    "C35_one_answer",
    "C35_ends",
    "C35_ends_when_numbered",
    "C35_attribute",
    "C35_raw",
    "C35_token_inside_token_refuted",
    "C35_value_searched_again_refuted",
    "C35_self_reference_refuted",
    "C35_empty_token_refuted",
    "C35_internal_attribute_refuted"
   ],
   "note": "Counterexamples to stronger or documented claims are kept as: C35_token_inside_token_refuted, C35_value_searched_again_refuted, C35_self_reference_refuted, C35_empty_token_refuted, C35_internal_attribute_refuted."
  },
  {
   "property": "C36",
   "status": "proved",
   "theorems": [
    "C36_runs_enabled_in_order",
    "C36_stops_at_failure",
    "C36_continue",
    "C36_depth_irrelevant",
    "C36_others_untouched",
    "C36_frame",
    "C36_one_node",
    "C36_self_after_nested_refuted",
    "C36_new_attribute_refuted",
    "C36_equal_value_refuted",
    "C36_recursion_refuted",
    "C36_interrupt_refuted"
   ],
   "note": "Counterexamples to stronger or documented claims are kept as: C36_self_after_nested_refuted, C36_new_attribute_refuted, C36_equal_value_refuted, C36_recursion_refuted, C36_interrupt_refuted."
  },
  {
   "property": "C37",
   "status": "proved",
   "theorems": [
    "C37_only_declared_names_stay",
    "C37_cleaning",
    "C37_second_name_refuted",
    "C37_prefix_refuted",
    "C37_nested_declared_refuted"
   ],
   "note": "Counterexamples to stronger or documented claims are kept as: C37_second_name_refuted, C37_prefix_refuted, C37_nested_declared_refuted."
  },
  {
   "property": "C38",
   "status": "proved",
   "theorems": [
    "C38_parameters",
    "C38_then_executes",
    "C38_bad_key_refuted"
   ],
   "note": "Counterexamples to stronger or documented claims are kept as: C38_bad_key_refuted."
  },
  {
   "property": "C39",
   "status": "proved",
   "theorems": [
    "C39_loaded_in_order",
    "C39_depth_first",
    "C39_acyclic_ends",
    "C39_cycle_endless_refuted",
    "C39_cycle_check"
   ],
   "note": "Counterexamples to stronger or documented claims are kept as: C39_cycle_endless_refuted."
  },
  {
   "property": "C40",
   "status": "proved",
   "theorems": [
    "C40_remove",
    "C40_single_references",
    "C40_every_other_stays_refuted",
    "C40_twice_referenced_refuted",
    "C40_unbuilt_refuted"
   ],
   "note": "Counterexamples to stronger or documented claims are kept as: C40_every_other_stays_refuted, C40_twice_referenced_refuted, C40_unbuilt_refuted."
  },
  {
   "property": "C41",
   "status": "proved",
   "theorems": [
    "C41_all_logged",
    "C41_any_cut_refuted",
    "C41_truncated_refuted"
   ],
   "note": "Counterexamples to stronger or documented claims are kept as: C41_any_cut_refuted, C41_truncated_refuted."
  },
  {
   "property": "C42",
   "status": "proved",
   "theorems": [
    "C42_pairs",
    "C42_bad_key",
    "C42_odd",
    "C42_file",
    "C42_exhaustive"
   ],
   "note": ""
  },
  {
   "property": "C43",
   "status": "proved",
   "theorems": [
    "C43_proxy",
    "C43_parent_there",
    "C43_copy",
    "C43_mirror",
    "C43_no_source",
    "C43_descendants_missing_refuted",
    "C43_broken_refuted",
    "C43_endless_refuted"
   ],
   "note": "Counterexamples to stronger or documented claims are kept as: C43_descendants_missing_refuted, C43_broken_refuted, C43_endless_refuted."
  },
  {
   "property": "C44",
   "status": "proved",
   "theorems": [
    "C44_external_sources",
    "C44_file_token_refuted",
    "C44_tokens_by_kind_refuted"
   ],
   "note": "Counterexamples to stronger or documented claims are kept as: C44_file_token_refuted, C44_tokens_by_kind_refuted."
  },
  {
   "property": "C45",
   "status": "proved",
   "theorems": [
    "C45_code_resolved",
    "C45_code_as_written"
   ],
   "note": ""
  },
  {
   "property": "C46",
   "status": "proved",
   "theorems": [
    "C46_loaded_nodes_tidy",
    "C46_add",
    "C46_delete",
    "C46_rename",
    "C46_set",
    "C46_set_missing",
    "C46_history_tidy",
    "C46_add_hidden_name_refuted",
    "C46_add_muted_refuted",
    "C46_rename_to_itself_refuted",
    "C46_created_type_refuted",
    "C46_created_twice_refuted",
    "C46_set_fails_half_way_refuted",
    "C46_add_without_value_refuted"
   ],
   "note": "Counterexamples to stronger or documented claims are kept as: C46_add_hidden_name_refuted, C46_add_muted_refuted, C46_rename_to_itself_refuted, C46_created_type_refuted, C46_created_twice_refuted, C46_set_fails_half_way_refuted, C46_add_without_value_refuted."
  },
  {
   "property": "C47",
   "status": "proved",
   "theorems": [
    "C47_transfer",
    "C47_target_keeps_its_name_refuted"
   ],
   "note": "Counterexamples to stronger or documented claims are kept as: C47_target_keeps_its_name_refuted."
  },
  {
   "property": "C48",
   "status": "proved",
   "theorems": [
    "C48_duplicate",
    "C48_duplicate_alone",
    "C48_overridden_child_renamed_refuted",
    "C48_from_another_layer_refuted",
    "C48_gap_refuted",
    "C48_muted_refuted"
   ],
   "note": "Counterexamples to stronger or documented claims are kept as: C48_overridden_child_renamed_refuted, C48_from_another_layer_refuted, C48_gap_refuted, C48_muted_refuted."
  },
  {
   "property": "C49",
   "status": "proved",
   "theorems": [
    "C49_hierarchy"
   ],
   "note": ""
  },
  {
   "property": "C50",
   "status": "proved",
   "theorems": [
    "C50_no_rebuild",
    "C50_same_failures",
    "C50_edit_seen",
    "C50_edits",
    "C50_comment_refuted"
   ],
   "note": "Counterexamples to stronger or documented claims are kept as: C50_comment_refuted."
  },
  {
   "property": "C51",
   "status": "proved",
   "theorems": [
    "C51_no_rebuild",
    "C51_reported",
    "C51_stronger_layer_refuted",
    "C51_taken_back_refuted",
    "C51_instance_with_own_state_refuted",
    "C51_instance_of_disabled_refuted"
   ],
   "note": "Counterexamples to stronger or documented claims are kept as: C51_stronger_layer_refuted, C51_taken_back_refuted, C51_instance_with_own_state_refuted, C51_instance_of_disabled_refuted."
  },
  {
   "property": "C52",
   "status": "proved",
   "theorems": [
    "C52_builds",
    "C52_no_rebuild",
    "C52_one_below",
    "C52_same_names",
    "C52_taken_away",
    "C52_reported",
    "C52_instances",
    "C52_reverted",
    "C52_three_layers_refuted",
    "C52_name_removed_refuted",
    "C52_stronger_layer_refuted",
    "C52_muted_layer_refuted",
    "C52_instance_twice_refuted",
    "C52_instance_own_child_refuted",
    "C52_gap_refuted"
   ],
   "note": "Counterexamples to stronger or documented claims are kept as: C52_three_layers_refuted, C52_name_removed_refuted, C52_stronger_layer_refuted, C52_muted_layer_refuted, C52_instance_twice_refuted, C52_instance_own_child_refuted, C52_gap_refuted."
  },
  {
   "property": "C53",
   "status": "proved",
   "theorems": [
    "C53_arcs",
    "C53_every_base",
    "C53_gap_refuted"
   ],
   "note": "Counterexamples to stronger or documented claims are kept as: C53_gap_refuted."
  },
  {
   "property": "C54",
   "status": "proved",
   "theorems": [
    "C54_layers",
    "C54_first_layer",
    "C54_stronger_unseen",
    "C54_stronger_refuted",
    "C54_parent_counts_refuted",
    "C54_history_user",
    "C54_history",
    "C54_grandparent_refuted"
   ],
   "note": "Counterexamples to stronger or documented claims are kept as: C54_stronger_refuted, C54_parent_counts_refuted, C54_grandparent_refuted."
  },
  {
   "property": "C55",
   "status": "proved",
   "theorems": [
    "C55_all",
    "C55_local",
    "C55_covered",
    "C55_instanced",
    "C55_inherited",
    "C55_source_value",
    "C55_parent_value",
    "C55_both_refuted",
    "C55_value_refuted"
   ],
   "note": "Counterexamples to stronger or documented claims are kept as: C55_both_refuted, C55_value_refuted."
  },
  {
   "property": "C56",
   "status": "proved",
   "theorems": [
    "C56_unused_name",
    "C56_empty_name_refuted",
    "C56_loaded",
    "C56_uids",
    "C56_same_reading_refuted",
    "C56_new_name_refuted",
    "C56_get_stage",
    "C56_never_found_refuted",
    "C56_wrong_graph_refuted",
    "C56_save_refuted",
    "C56_no_server_left",
    "C56_other_server_kept",
    "C56_fifth_check_refuted",
    "C56_build_fails_refuted",
    "C56_forgotten_server_refuted",
    "C56_server_needed",
    "C56_verbosity",
    "C56_verbosity_refuted"
   ],
   "note": "Counterexamples to stronger or documented claims are kept as: C56_empty_name_refuted, C56_same_reading_refuted, C56_new_name_refuted, C56_never_found_refuted, C56_wrong_graph_refuted, C56_save_refuted, C56_fifth_check_refuted, C56_build_fails_refuted, C56_forgotten_server_refuted, C56_verbosity_refuted."
  },
  {
   "property": "C57",
   "status": "proved",
   "theorems": [
    "C57_carried",
    "C57_local",
    "C57_comment_refuted"
   ],
   "note": "Counterexamples to stronger or documented claims are kept as: C57_comment_refuted."
  },
  {
   "property": "C58",
   "status": "proved",
   "theorems": [
    "C58_dirties",
    "C58_once",
    "C58_covers",
    "C58_stale_refuted",
    "C58_missed_refuted",
    "C58_ancestor_refuted",
    "C58_gone_refuted"
   ],
   "note": "Counterexamples to stronger or documented claims are kept as: C58_stale_refuted, C58_missed_refuted, C58_ancestor_refuted, C58_gone_refuted."
  },
  {
   "property": "C59",
   "status": "proved",
   "theorems": [
    "C59_history",
    "C59_answer",
    "C59_stronger_refuted",
    "C59_weaker_refuted",
    "C59_shielded_refuted",
    "C59_world_refuted",
    "C59_source_refuted"
   ],
   "note": "Counterexamples to stronger or documented claims are kept as: C59_stronger_refuted, C59_weaker_refuted, C59_shielded_refuted, C59_world_refuted, C59_source_refuted."
  },
  {
   "property": "C60",
   "status": "proved",
   "theorems": [
    "C60_unified",
    "C60_native",
    "C60_back",
    "C60_directory",
    "C60_prefix_refuted",
    "C60_braces_refuted",
    "C60_text_refuted",
    "C60_directory_refuted"
   ],
   "note": "Counterexamples to stronger or documented claims are kept as: C60_prefix_refuted, C60_braces_refuted, C60_text_refuted, C60_directory_refuted."
  },
  {
   "property": "C61",
   "status": "proved",
   "theorems": [
    "C61_local",
    "C61_elsewhere",
    "C61_appears_refuted",
    "C61_drawn_refuted"
   ],
   "note": "Counterexamples to stronger or documented claims are kept as: C61_appears_refuted, C61_drawn_refuted."
  },
  {
   "property": "C62",
   "status": "proved",
   "theorems": [
    "C62_added",
    "C62_order_refuted",
    "C62_indirect_refuted"
   ],
   "note": "Counterexamples to stronger or documented claims are kept as: C62_order_refuted, C62_indirect_refuted."
  },
  {
   "property": "C63",
   "status": "proved",
   "theorems": [
    "C63_removed",
    "C63_undone",
    "C63_stale_refuted",
    "C63_order_refuted",
    "C63_revived_refuted"
   ],
   "note": "Counterexamples to stronger or documented claims are kept as: C63_stale_refuted, C63_order_refuted, C63_revived_refuted."
  },
  {
   "property": "C64",
   "status": "proved",
   "theorems": [
    "C64_file",
    "C64_list",
    "C64_there",
    "C64_list_there",
    "C64_plain",
    "C64_path",
    "C64_solo_refuted",
    "C64_missing_refuted",
    "C64_other_node_refuted",
    "C64_beside_refuted",
    "C64_nested_refuted",
    "C64_number_refuted",
    "C64_endless_refuted"
   ],
   "note": "Counterexamples to stronger or documented claims are kept as: C64_solo_refuted, C64_missing_refuted, C64_other_node_refuted, C64_beside_refuted, C64_nested_refuted, C64_number_refuted, C64_endless_refuted."
  },
  {
   "property": "C65",
   "status": "proved",
   "theorems": [
    "C65_lower",
    "C65_plain",
    "C65_edges",
    "C65_weak_source_refuted",
    "C65_early_source_refuted",
    "C65_comment_refuted",
    "C65_world_source_refuted",
    "C65_absent_refuted"
   ],
   "note": "Counterexamples to stronger or documented claims are kept as: C65_weak_source_refuted, C65_early_source_refuted, C65_comment_refuted, C65_world_source_refuted, C65_absent_refuted."
  },
  {
   "property": "C66",
   "status": "proved",
   "theorems": [
    "C66_given",
    "C66_stronger_refuted",
    "C66_empty_refuted"
   ],
   "note": "Counterexamples to stronger or documented claims are kept as: C66_stronger_refuted, C66_empty_refuted."
  },
  {
   "property": "C67",
   "status": "proved",
   "theorems": [
    "C67_taken",
    "C67_parent_refuted"
   ],
   "note": "Counterexamples to stronger or documented claims are kept as: C67_parent_refuted."
  },
  {
   "property": "C68",
   "status": "proved",
   "theorems": [
    "C68_below",
    "C68_parent",
    "C68_last",
    "C68_files",
    "C68_like_loading",
    "C68_order_refuted",
    "C68_missing_refuted",
    "C68_on_top",
    "C68_loaded_qualifies",
    "C68_inserted_refuted",
    "C68_dangling_refuted",
    "C68_undone"
   ],
   "note": "Counterexamples to stronger or documented claims are kept as: C68_order_refuted, C68_missing_refuted, C68_inserted_refuted, C68_dangling_refuted."
  },
  {
   "property": "C69",
   "status": "proved",
   "theorems": [
    "C69_data",
    "C69_overrides",
    "C69_folder",
    "C69_succeeds",
    "C69_reload",
    "C69_mixed_refuted",
    "C69_same_name_refuted",
    "C69_nested_override_refuted"
   ],
   "note": "Counterexamples to stronger or documented claims are kept as: C69_mixed_refuted, C69_same_name_refuted, C69_nested_override_refuted."
  },
  {
   "property": "C70",
   "status": "proved",
   "theorems": [
    "C70_runs",
    "C70_whole_order",
    "C70_stops",
    "C70_no_start",
    "C70_others_untouched",
    "C70_world_only",
    "C70_parameters",
    "C70_bad_parameter",
    "C70_world_code",
    "C70_world_names",
    "C70_index_refuted",
    "C70_index_out_of_range_refuted",
    "C70_exit_node_refuted",
    "C70_disabled_world_refuted",
    "C70_disabled_start_refuted"
   ],
   "note": "Counterexamples to stronger or documented claims are kept as: C70_index_refuted, C70_index_out_of_range_refuted, C70_exit_node_refuted, C70_disabled_world_refuted, C70_disabled_start_refuted."
  },
  {
   "property": "C71",
   "status": "proved",
   "theorems": [
    "C71_cached",
    "C71_changed",
    "C71_round_trip",
    "C71_exact",
    "C71_falsy_refuted"
   ],
   "note": "Counterexamples to stronger or documented claims are kept as: C71_falsy_refuted."
  },
  {
   "property": "C72",
   "status": "proved",
   "theorems": [
    "C72_as_its_code",
    "C72_runs_the_node",
    "C72_globals",
    "C72_unresolved",
    "C72_on_composed",
    "C72_empty_refuted"
   ],
   "note": "Counterexamples to stronger or documented claims are kept as: C72_empty_refuted."
  },
  {
   "property": "C73",
   "status": "proved",
   "theorems": [
    "C73_value",
    "C73_runs_no_code",
    "C73_raises",
    "C73_on_self",
    "C73_any_text_refuted"
   ],
   "note": "Counterexamples to stronger or documented claims are kept as: C73_any_text_refuted."
  },
  {
   "property": "C74",
   "status": "proved",
   "theorems": [
    "C74_removes_only_old",
    "C74_removes_old",
    "C74_list",
    "C74_unended",
    "C74_first",
    "C74_any_path_refuted"
   ],
   "note": "Counterexamples to stronger or documented claims are kept as: C74_any_path_refuted."
  },
  {
   "property": "C75",
   "status": "proved",
   "theorems": [
    "C75_context",
    "C75_registered_first",
    "C75_registered",
    "C75_handed_over",
    "C75_refused",
    "C75_start_refuted"
   ],
   "note": "Counterexamples to stronger or documented claims are kept as: C75_start_refuted."
  },
  {
   "property": "C76",
   "status": "proved",
   "theorems": [
    "C76_made",
    "C76_found",
    "C76_refused",
    "C76_default",
    "C76_given_graph",
    "C76_apostrophe",
    "C76_plugins",
    "C76_plugins_fail",
    "C76_restart",
    "C76_shadowed_refuted",
    "C76_given_refuted",
    "C76_graph_kept_refuted",
    "C76_starter_refuted"
   ],
   "note": "Counterexamples to stronger or documented claims are kept as: C76_shadowed_refuted, C76_given_refuted, C76_graph_kept_refuted, C76_starter_refuted."
  },
  {
   "property": "C77",
   "status": "proved",
   "theorems": [
    "C77_reverted",
    "C77_source_refuted",
    "C77_instance_refuted"
   ],
   "note": "Counterexamples to stronger or documented claims are kept as: C77_source_refuted, C77_instance_refuted."
  },
  {
   "property": "C78",
   "status": "proved",
   "theorems": [
    "C78_ancestors",
    "C78_above",
    "C78_implied",
    "C78_dict",
    "C78_exec_in",
    "C78_names_refuted",
    "C78_top",
    "C78_top_refuted"
   ],
   "note": "Counterexamples to stronger or documented claims are kept as: C78_names_refuted, C78_top_refuted."
  },
  {
   "property": "C79",
   "status": "proved",
   "theorems": [
    "C79_converts",
    "C79_failure_writes_nothing",
    "C79_missing_refused",
    "C79_again",
    "C79_opens_the_same",
    "C79_no_extension_refuted",
    "C79_newer_never_ends_refuted",
    "C79_newer_major_refuted",
    "C79_unsaid_version_refuted"
   ],
   "note": "Counterexamples to stronger or documented claims are kept as: C79_no_extension_refuted, C79_newer_never_ends_refuted, C79_newer_major_refuted, C79_unsaid_version_refuted."
  },
  {
   "property": "C80",
   "status": "proved",
   "theorems": [
    "C80_warns",
    "C80_silent",
    "C80_own_refuted"
   ],
   "note": "Counterexamples to stronger or documented claims are kept as: C80_own_refuted."
  },
  {
   "property": "C81",
   "status": "proved",
   "theorems": [
    "C81_files",
    "C81_floor",
    "C81_bad_level",
    "C81_remote",
    "C81_stderr_unset",
    "C81_stderr_set",
    "C81_silence_refuted",
    "C81_twice_refuted",
    "C81_more_refuted",
    "C81_again_refuted",
    "C81_same_file_refuted"
   ],
   "note": "Counterexamples to stronger or documented claims are kept as: C81_silence_refuted, C81_twice_refuted, C81_more_refuted, C81_again_refuted, C81_same_file_refuted."
  },
  {
   "property": "C82",
   "status": "proved",
   "theorems": [
    "C82_shows",
    "C82_unasked",
    "C82_quiet",
    "C82_environment_first",
    "C82_zero_refuted",
    "C82_legacy_refuted",
    "C82_server",
    "C82_server_restores",
    "C82_server_leaves_refuted"
   ],
   "note": "Counterexamples to stronger or documented claims are kept as: C82_zero_refuted, C82_legacy_refuted, C82_server_leaves_refuted."
  },
  {
   "property": "C83",
   "status": "proved",
   "theorems": [
    "C83_data",
    "C83_by_meta_name",
    "C83_source",
    "C83_layer_node",
    "C83_copy",
    "C83_suffixes_refuted",
    "C83_composed",
    "C83_comment_refuted"
   ],
   "note": "Counterexamples to stronger or documented claims are kept as: C83_suffixes_refuted, C83_comment_refuted."
  },
  {
   "property": "C84",
   "status": "proved",
   "theorems": [
    "C84_found",
    "C84_read",
    "C84_default",
    "C84_half_written",
    "C84_half_written_refuted",
    "C84_junk_refuted"
   ],
   "note": "Counterexamples to stronger or documented claims are kept as: C84_half_written_refuted, C84_junk_refuted."
  },
  {
   "property": "C85",
   "status": "proved",
   "theorems": [
    "C85_first",
    "C85_stream",
    "C85_released",
    "C85_connection",
    "C85_runs",
    "C85_error",
    "C85_unreadable",
    "C85_python3_refuted",
    "C85_uncomposed_refuted",
    "C85_exit_refuted"
   ],
   "note": "Counterexamples to stronger or documented claims are kept as: C85_python3_refuted, C85_uncomposed_refuted, C85_exit_refuted."
  },
  {
   "property": "C86",
   "status": "proved",
   "theorems": [
    "C86_nothing_else",
    "C86_seen",
    "C86_hidden",
    "C86_taken_back",
    "C86_instances",
    "C86_source_layer",
    "C86_one_file_twice_refuted"
   ],
   "note": "Counterexamples to stronger or documented claims are kept as: C86_one_file_twice_refuted."
  },
  {
   "property": "C87",
   "status": "proved",
   "theorems": [
    "C87_line",
    "C87_every_line",
    "C87_resolved_refuted",
    "C87_snippet_refuted",
    "C87_innermost",
    "C87_either",
    "C87_after_execute_refuted",
    "C87_caller_refuted",
    "C87_uncompiled"
   ],
   "note": "Counterexamples to stronger or documented claims are kept as: C87_resolved_refuted, C87_snippet_refuted, C87_after_execute_refuted, C87_caller_refuted."
  },
  {
   "property": "C88",
   "status": "proved",
   "theorems": [
    "C88_refused",
    "C88_agree",
    "C88_place",
    "C88_saved",
    "C88_opened",
    "C88_unsaved_refuted",
    "C88_empty_path_refuted"
   ],
   "note": "Counterexamples to stronger or documented claims are kept as: C88_unsaved_refuted, C88_empty_path_refuted."
  },
  {
   "property": "C89",
   "status": "proved",
   "theorems": [
    "C89_sources",
    "C89_targets",
    "C89_inverse",
    "C89_circle_refuted"
   ],
   "note": "Counterexamples to stronger or documented claims are kept as: C89_circle_refuted."
  },
  {
   "property": "C90",
   "status": "proved",
   "theorems": [
    "C90_reads_back",
    "C90_quote_inside_refuted",
    "C90_documented_refuted",
    "C90_numbers"
   ],
   "note": "Counterexamples to stronger or documented claims are kept as: C90_quote_inside_refuted, C90_documented_refuted."
  }
 ]
}