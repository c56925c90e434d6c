{
 "claims": [
  {
   "property": "C01",
   "status": "proved",
   "theorems": [
    "C01_from_bytes_total_64",
    "C01_from_bytes_verbatim",
    "C01_from_bytes_digest",
    "C01_from_bytes_idempotent",
    "C01_from_bytes_injective_refuted"
   ],
   "note": ""
  },
  {
   "property": "C02",
   "status": "proved",
   "theorems": [
    "C02_string_round_trip",
    "C02_string_injective",
    "C02_string_shape",
    "C02_from_string_errors",
    "C02_from_string_value",
    "C02_compare"
   ],
   "note": ""
  },
  {
   "property": "C03",
   "status": "proved",
   "theorems": [
    "C03_only_concatenation",
    "C03_concatenation_binding"
   ],
   "note": ""
  },
  {
   "property": "C04",
   "status": "proved",
   "theorems": [
    "C04_tree_shape",
    "C04_nil_is_error",
    "C04_empty_list_panics"
   ],
   "note": ""
  },
  {
   "property": "C05",
   "status": "proved",
   "theorems": [
    "C05_leaves_in_order",
    "C05_head_is_merkle_root"
   ],
   "note": ""
  },
  {
   "property": "C06",
   "status": "proved",
   "theorems": [
    "C06_head_commits_to_leaves",
    "C06_blocks_binding_refuted",
    "C06_size_binding_refuted"
   ],
   "note": ""
  },
  {
   "property": "C07",
   "status": "proved",
   "theorems": [
    "C07_order_restores",
    "C07_empty_block_refuted"
   ],
   "note": ""
  },
  {
   "property": "C08",
   "status": "proved",
   "theorems": [
    "C08_order_sound",
    "C08_order_permutation",
    "C08_repeated_leaves_refuted",
    "C08_json_list_round_trip"
   ],
   "note": ""
  },
  {
   "property": "C09",
   "status": "proved",
   "theorems": [
    "C09_sign_succeeds",
    "C09_public_key_recovered",
    "C09_public_key_unique"
   ],
   "note": ""
  },
  {
   "property": "C10",
   "status": "proved",
   "theorems": [
    "C10_verify_rejects_forgery_refuted"
   ],
   "note": ""
  },
  {
   "property": "C11",
   "status": "proved",
   "theorems": [
    "C11_ring_sign_verifies",
    "C11_ring_sign_outsider"
   ],
   "note": ""
  },
  {
   "property": "C12",
   "status": "proved",
   "theorems": [
    "C12_verify_true_iff_chain_closes",
    "C12_verify_false_iff_chain_open",
    "C12_verify_panics_iff_scalar_missing",
    "C12_verify_ignores_surplus",
    "C12_empty_ring_verifies_everything"
   ],
   "note": ""
  },
  {
   "property": "C13",
   "status": "proved",
   "theorems": [
    "C13_signature_text",
    "C13_ring_signature_text",
    "C13_private_key_text",
    "C13_public_key_text",
    "C13_scalar_text_exactly",
    "C13_point_text_exactly",
    "C13_signature_text_exactly",
    "C13_ring_signature_text_exactly"
   ],
   "note": ""
  },
  {
   "property": "C14",
   "status": "proved",
   "theorems": [
    "C14_accepts_exactly",
    "C14_rejects_exactly",
    "C14_hashes_bind_the_ring"
   ],
   "note": ""
  },
  {
   "property": "C15",
   "status": "proved",
   "theorems": [
    "C15_encrypt_decrypt",
    "C15_builder"
   ],
   "note": ""
  },
  {
   "property": "C16",
   "status": "proved",
   "theorems": [
    "C16_decrypt_fails_exactly",
    "C16_decrypt_authenticates_refuted",
    "C16_bit_flips_carry_over",
    "C16_prefix_replaceable"
   ],
   "note": ""
  },
  {
   "property": "C17",
   "status": "proved",
   "theorems": [
    "C17_ring_built_exactly",
    "C17_ring_otherwise_error",
    "C17_ring_one_member",
    "C17_ring_hash_binding",
    "C17_ring_hash_determines_members_refuted"
   ],
   "note": ""
  },
  {
   "property": "C18",
   "status": "proved",
   "theorems": [
    "C18_unit_content_built_exactly",
    "C18_unit_content_otherwise_error",
    "C18_unit_built_exactly"
   ],
   "note": ""
  },
  {
   "property": "C19",
   "status": "proved",
   "theorems": [
    "C19_genesis_built_exactly",
    "C19_genesis_otherwise_error",
    "C19_genesis_hash_binding",
    "C19_unit_hash_binding",
    "C19_genesis_private_built_exactly",
    "C19_genesis_private_hash_binding"
   ],
   "note": ""
  },
  {
   "property": "C20",
   "status": "proved",
   "theorems": [
    "C20_distinct_contents_distinct_hashes_refuted",
    "C20_unit_content_hash_binding",
    "C20_hash_hides_content_refuted"
   ],
   "note": ""
  },
  {
   "property": "C21",
   "status": "proved",
   "theorems": [
    "C21_origin_built_exactly",
    "C21_content_built_exactly",
    "C21_content_hash_binding",
    "C21_content_hash_determines_time_refuted",
    "C21_transaction_built_exactly",
    "C21_transaction_hash_binding"
   ],
   "note": ""
  },
  {
   "property": "C22",
   "status": "proved",
   "theorems": [
    "C22_receipts_share_one_hash",
    "C22_privates_share_one_hash",
    "C22_private_and_receipt_share_one_hash",
    "C22_private_lists_share_by_length",
    "C22_receipt_built_exactly",
    "C22_private_built_exactly"
   ],
   "note": ""
  },
  {
   "property": "C23",
   "status": "proved",
   "theorems": [
    "C23_secret_built_exactly",
    "C23_secret_otherwise_error",
    "C23_amount_nonce_refuted",
    "C23_nonce_origin_refuted",
    "C23_origin_sides_refuted",
    "C23_secret_hash_commits_to_public",
    "C23_secret_hash_binding"
   ],
   "note": ""
  },
  {
   "property": "C24",
   "status": "proved",
   "theorems": [
    "C24_block_built_exactly",
    "C24_block_otherwise_error",
    "C24_block_hash_binding"
   ],
   "note": ""
  },
  {
   "property": "C25",
   "status": "proved",
   "theorems": [
    "C25_chain_built_exactly",
    "C25_chain_otherwise_error",
    "C25_chain_hash_binding"
   ],
   "note": ""
  },
  {
   "property": "C26",
   "status": "proved",
   "theorems": [
    "C26_peer_text_round_trip",
    "C26_peer_text_round_trip_char",
    "C26_peer_text_accepted_exactly",
    "C26_peer_parts_accepted_exactly",
    "C26_peer_otherwise_error",
    "C26_large_port_round_trip_refuted",
    "C26_negative_port_rejected_refuted"
   ],
   "note": ""
  },
  {
   "property": "C27",
   "status": "proved",
   "theorems": [
    "C27_last_call_wins_unit_content",
    "C27_last_call_wins_unit",
    "C27_last_call_wins_genesis",
    "C27_last_call_wins_genesis_private",
    "C27_last_call_wins_origin",
    "C27_last_call_wins_content",
    "C27_last_call_wins_transaction",
    "C27_last_call_wins_secret",
    "C27_last_call_wins_receipt",
    "C27_last_call_wins_transaction_private",
    "C27_last_call_wins_block",
    "C27_last_call_wins_chain",
    "C27_last_call_wins_identity_transactions",
    "C27_last_call_wins_identity",
    "C27_last_call_wins_collection",
    "C27_last_call_wins_peers",
    "C27_last_call_wins_ring",
    "C27_last_call_wins_peer_without_now",
    "C27_last_call_wins_peer_refuted"
   ],
   "note": ""
  },
  {
   "property": "C28",
   "status": "proved",
   "theorems": [
    "C28_is_valid_exactly_denoted",
    "C28_delimiter_is_the_interval",
    "C28_specific_is_valid",
    "C28_builder_exactly",
    "C28_specific_builder_exactly",
    "C28_range_builder_never_fails",
    "C28_satisfiable_refuted"
   ],
   "note": ""
  },
  {
   "property": "C29",
   "status": "proved",
   "theorems": [
    "C29_text_round_trip",
    "C29_mandatory_text_panics",
    "C29_zero_amount_round_trip_refuted"
   ],
   "note": ""
  },
  {
   "property": "C30",
   "status": "proved",
   "theorems": [
    "C30_accepts_exactly_the_grammar",
    "C30_trimmed_is_unique",
    "C30_specific_exactly",
    "C30_otherwise_error",
    "C30_negative_rejected_refuted",
    "C30_specific_trims_refuted"
   ],
   "note": ""
  },
  {
   "property": "C31",
   "status": "proved",
   "theorems": [
    "C31_contains_longest",
    "C31_contains_none",
    "C31_longest_word_unique",
    "C31_reverse_up_to_first_match"
   ],
   "note": ""
  },
  {
   "property": "C32",
   "status": "proved",
   "theorems": [
    "C32_pattern_result_exactly",
    "C32_pattern_earliest",
    "C32_pattern_error_exactly",
    "C32_patterns_earliest_first_listed",
    "C32_patterns_error_exactly",
    "C32_patterns_never_panic"
   ],
   "note": ""
  },
  {
   "property": "C33",
   "status": "proved",
   "theorems": [
    "C33_match_exactly",
    "C33_match_iff_first_choice_reads",
    "C33_discoveries_prefix_of_input",
    "C33_single_serie_exactly",
    "C33_single_serie_text",
    "C33_next_never_reverse",
    "C33_text_accounted_refuted",
    "C33_discovery_index_is_offset_refuted"
   ],
   "note": ""
  },
  {
   "property": "C34",
   "status": "proved",
   "theorems": [
    "C34_group_search_exactly",
    "C34_group_search_error_exactly",
    "C34_remaining_when_at_offset_zero",
    "C34_remaining_refuted"
   ],
   "note": ""
  },
  {
   "property": "C35",
   "status": "proved",
   "theorems": [
    "C35_pattern_rule_exactly",
    "C35_pattern_rule_always_answers",
    "C35_pattern_rule_prefix_within_maximum",
    "C35_constant_rule_exactly",
    "C35_constant_rule_always_answers",
    "C35_empty_constant_never_found",
    "C35_constant_prefix_refuted",
    "C35_huge_maximum_matches_nothing"
   ],
   "note": ""
  },
  {
   "property": "C36",
   "status": "proved",
   "theorems": [
    "C36_unique_table_built_exactly_when",
    "C36_unique_table_finds_exactly",
    "C36_unique_table_unknown_name",
    "C36_last_wins_table_built_exactly_when",
    "C36_last_wins_table_finds_the_last"
   ],
   "note": ""
  },
  {
   "property": "C37",
   "status": "proved",
   "theorems": [
    "C37_valid_spells_a_prefix",
    "C37_whole_script_refuted"
   ],
   "note": ""
  },
  {
   "property": "C38",
   "status": "proved",
   "theorems": [
    "C38_best_line",
    "C38_furthest_invalid_line_refuted"
   ],
   "note": ""
  },
  {
   "property": "C39",
   "status": "proved",
   "theorems": [
    "C39_at_most_the_maximum",
    "C39_occurrences_are_valid",
    "C39_valid_within_cardinality",
    "C39_never_more_than_the_maximum_refuted"
   ],
   "note": ""
  },
  {
   "property": "C40",
   "status": "proved",
   "theorems": [
    "C40_not_blocks",
    "C40_positive_line_required_refuted"
   ],
   "note": ""
  },
  {
   "property": "C41",
   "status": "proved",
   "theorems": [
    "C41_without_permission",
    "C41_two_phases",
    "C41_history_independent_refuted"
   ],
   "note": ""
  },
  {
   "property": "C42",
   "status": "proved",
   "theorems": [
    "C42_always_answers",
    "C42_history_independent",
    "C42_element_is_the_unfolding",
    "C42_unfolding_is_unique",
    "C42_fails_exactly_when",
    "C42_no_token_expanded_twice",
    "C42_dependencies_exactly",
    "C42_recursive_references_resolve",
    "C42_endless_recursion_rejected_refuted"
   ],
   "note": ""
  },
  {
   "property": "C43",
   "status": "proved",
   "theorems": [
    "C43_position_exact",
    "C43_every_mistake_has_the_position_of_a_text",
    "C43_index_is_in_the_script_refuted"
   ],
   "note": ""
  },
  {
   "property": "C44",
   "status": "proved",
   "theorems": [
    "C44_no_mistake_iff_valid",
    "C44_lexer_answers",
    "C44_not_block_refuted",
    "C44_with_prefixes_refuted"
   ],
   "note": ""
  },
  {
   "property": "C45",
   "status": "proved",
   "theorems": [
    "C45_answers_exactly",
    "C45_root_mirrors_the_tree",
    "C45_container_root_has_its_text",
    "C45_own_roots_when_texts_are_distinct",
    "C45_own_roots_refuted"
   ],
   "note": ""
  },
  {
   "property": "C46",
   "status": "proved",
   "theorems": [
    "C46_execute_exactly",
    "C46_deterministic_events_one_answer",
    "C46_application_returns_the_first",
    "C46_application_returns_everything_refuted",
    "C46_nil_falls_through_refuted"
   ],
   "note": ""
  },
  {
   "property": "C47",
   "status": "proved",
   "theorems": [
    "C47_finds_only_what_is_asked_for",
    "C47_fails_only_if_absent",
    "C47_every_order_answers",
    "C47_roots_of_trees_find_nodes_only",
    "C47_root_scan",
    "C47_deterministic_refuted"
   ],
   "note": ""
  },
  {
   "property": "C48",
   "status": "proved",
   "theorems": [
    "C48_jobs_are_the_test_lines",
    "C48_suites_exactly",
    "C48_first_failure_is_returned",
    "C48_closed_grammars_never_fail",
    "C48_closed_grammars_answer",
    "C48_successful_line_is_read",
    "C48_undeclared_reference_aborts",
    "C48_success_means_whole_line_refuted",
    "C48_unrelated_tokens_do_not_matter_refuted"
   ],
   "note": ""
  },
  {
   "property": "C49",
   "status": "proved",
   "theorems": [
    "C49_same_message_reveals_key",
    "C49_same_message_reveals_signer"
   ],
   "note": ""
  },
  {
   "property": "C50",
   "status": "proved",
   "theorems": [
    "C50_ring_filler_reveals_key"
   ],
   "note": ""
  },
  {
   "property": "C51",
   "status": "proved",
   "theorems": [
    "C51_rsa_key_text",
    "C51_rsa_key_text_errors"
   ],
   "note": ""
  },
  {
   "property": "C52",
   "status": "proved",
   "theorems": [
    "C52_collection_built_exactly",
    "C52_collection_otherwise_error",
    "C52_peers_built_exactly",
    "C52_collection_hash_binding",
    "C52_one_element_collection_hash",
    "C52_identity_built_exactly",
    "C52_identity_transactions_always_built"
   ],
   "note": ""
  },
  {
   "property": "C53",
   "status": "proved",
   "theorems": [
    "C53_transaction_hash_commits_to_ancestry"
   ],
   "note": ""
  },
  {
   "property": "C54",
   "status": "proved",
   "theorems": [
    "C54_find_last_of_that_name",
    "C54_find_error_exactly",
    "C54_amount_is_bytes",
    "C54_is_amount",
    "C54_is_at_least",
    "C54_is_in_range",
    "C54_range_upper_bound_refuted"
   ],
   "note": ""
  },
  {
   "property": "C55",
   "status": "proved",
   "theorems": [
    "C55_valid_is_a_reading"
   ],
   "note": ""
  },
  {
   "property": "C56",
   "status": "proved",
   "theorems": [
    "C56_complete_lines",
    "C56_optional_in_the_middle_refuted",
    "C56_recursion_reads_less_refuted"
   ],
   "note": ""
  },
  {
   "property": "C57",
   "status": "proved",
   "theorems": [
    "C57_answer_independent_of_bound",
    "C57_ends_without_left_recursion",
    "C57_repeated_not_block_never_ends_refuted",
    "C57_alternating_recursion_never_ends_refuted",
    "C57_expected_element_never_ends_refuted",
    "C57_not_block_channel_never_ends_refuted",
    "C57_switching_channel_never_ends_refuted"
   ],
   "note": ""
  },
  {
   "property": "C58",
   "status": "proved",
   "theorems": [
    "C58_one_channel_one_answer",
    "C58_channel_order_irrelevant_refuted",
    "C58_asking_twice_refuted"
   ],
   "note": ""
  },
  {
   "property": "C59",
   "status": "proved",
   "theorems": [
    "C59_specifiers"
   ],
   "note": ""
  },
  {
   "property": "C60",
   "status": "proved",
   "theorems": [
    "C60_no_prefix_in_valid_rules"
   ],
   "note": ""
  },
  {
   "property": "C61",
   "status": "proved",
   "theorems": [
    "C61_repeated_constant_read",
    "C61_later_occurrence_spoils_the_line_refuted"
   ],
   "note": ""
  },
  {
   "property": "C62",
   "status": "proved",
   "theorems": [
    "C62_mistake_names_its_reason"
   ],
   "note": ""
  },
  {
   "property": "C63",
   "status": "proved",
   "theorems": [
    "C63_answer_decided_by_validity",
    "C63_tree_spells_a_prefix_of_the_script",
    "C63_prefixes_never_panic_refuted",
    "C63_suffix_is_of_the_script_refuted"
   ],
   "note": ""
  },
  {
   "property": "C64",
   "status": "proved",
   "theorems": [
    "C64_never_fails",
    "C64_always_answers"
   ],
   "note": ""
  },
  {
   "property": "C65",
   "status": "proved",
   "theorems": [
    "C65_tables_to_answers",
    "C65_made_paths_are_plain_and_resolved"
   ],
   "note": ""
  },
  {
   "property": "C66",
   "status": "proved",
   "theorems": [
    "C66_syntax_trees_have_roots",
    "C66_not_block_refuted"
   ],
   "note": ""
  },
  {
   "property": "C67",
   "status": "proved",
   "theorems": [
    "C67_one_value_per_container",
    "C67_success_is_a_list",
    "C67_failure_is_explained",
    "C67_events_get_roots_of_their_name_refuted"
   ],
   "note": ""
  },
  {
   "property": "C68",
   "status": "proved",
   "theorems": [
    "C68_lexer_built_or_error",
    "C68_lexer_holds_each_channel",
    "C68_channels_see_each_other_refuted"
   ],
   "note": ""
  },
  {
   "property": "C69",
   "status": "proved",
   "theorems": [
    "C69_announced_element_is_expected",
    "C69_announcement_is_not_valid"
   ],
   "note": ""
  },
  {
   "property": "C70",
   "status": "proved",
   "theorems": [
    "C70_valid_answers_exact",
    "C70_valid_is_exact_refuted",
    "C70_amounts",
    "C70_range_means_cardinality_refuted"
   ],
   "note": ""
  },
  {
   "property": "C71",
   "status": "proved",
   "theorems": [
    "C71_patterns_text_exactly",
    "C71_name_denotes_last",
    "C71_other_texts_are_errors",
    "C71_example",
    "C71_example_meaning"
   ],
   "note": ""
  },
  {
   "property": "C72",
   "status": "proved",
   "theorems": [
    "C72_source_read_as_written",
    "C72_layout_does_not_matter",
    "C72_example",
    "C72_any_option_refuted"
   ],
   "note": ""
  },
  {
   "property": "C73",
   "status": "proved",
   "theorems": [
    "C73_rules_text_exactly",
    "C73_rules_found_by_name",
    "C73_panics_exactly",
    "C73_always_ends",
    "C73_constants_cannot_contain",
    "C73_example",
    "C73_example_panic",
    "C73_example_errors"
   ],
   "note": ""
  },
  {
   "property": "C74",
   "status": "proved",
   "theorems": [
    "C74_tokens_text_exactly",
    "C74_every_answer",
    "C74_other_texts_are_errors",
    "C74_example",
    "C74_example_errors",
    "C74_hash_switches_refuted",
    "C74_empty_body_refused_refuted",
    "C74_separators_anywhere_refuted",
    "C74_garbage_refused_refuted"
   ],
   "note": ""
  },
  {
   "property": "C75",
   "status": "proved",
   "theorems": [
    "C75_references_text_exactly",
    "C75_panics_exactly",
    "C75_always_ends",
    "C75_meaning_is_unique",
    "C75_example",
    "C75_example_panic",
    "C75_example_wide",
    "C75_example_errors"
   ],
   "note": ""
  },
  {
   "property": "C76",
   "status": "proved",
   "theorems": [
    "C76_references_read_as_written",
    "C76_resolvable_sources_accepted",
    "C76_example_source",
    "C76_dot_is_required_refuted",
    "C76_any_path_refuted"
   ],
   "note": ""
  },
  {
   "property": "C77",
   "status": "proved",
   "theorems": [
    "C77_container_built_exactly",
    "C77_multiple_built_exactly",
    "C77_rooted_built_exactly",
    "C77_content_built_exactly",
    "C77_paths_built_exactly",
    "C77_example"
   ],
   "note": ""
  },
  {
   "property": "C78",
   "status": "proved",
   "theorems": [
    "C78_tokens_exactly",
    "C78_other_texts_fail",
    "C78_only_rules_panic",
    "C78_example"
   ],
   "note": ""
  },
  {
   "property": "C79",
   "status": "proved",
   "theorems": [
    "C79_references_never_work",
    "C79_answers_need_no_references",
    "C79_example"
   ],
   "note": ""
  },
  {
   "property": "C80",
   "status": "proved",
   "theorems": [
    "C80_kept_without_replacements",
    "C80_history_independent_without_replacements",
    "C80_other_names_are_kept",
    "C80_replacements_exactly",
    "C80_example",
    "C80_history_independent_refuted",
    "C80_only_the_include_is_replaced_refuted",
    "C80_failed_calls_change_nothing_refuted"
   ],
   "note": ""
  },
  {
   "property": "C81",
   "status": "proved",
   "theorems": [
    "C81_ast_is_the_lexer",
    "C81_unknown_root_fails",
    "C81_every_answer",
    "C81_suffix_is_ignored",
    "C81_root_is_of_the_ast",
    "C81_tests_are_asts",
    "C81_path_ends",
    "C81_example"
   ],
   "note": ""
  },
  {
   "property": "C82",
   "status": "proved",
   "theorems": [
    "C82_append",
    "C82_slice",
    "C82_assignment",
    "C82_list_fetch_element",
    "C82_operation_suffix",
    "C82_int_increment",
    "C82_variable_declaration",
    "C82_program",
    "C82_for_declaration",
    "C82_if_declaration",
    "C82_slice_delimiter",
    "C82_for_statement",
    "C82_header_variable",
    "C82_operation"
   ],
   "note": ""
  },
  {
   "property": "C83",
   "status": "proved",
   "theorems": [
    "C83_assignable",
    "C83_assignee",
    "C83_assignee_name",
    "C83_assignee_name_first",
    "C83_direction",
    "C83_index_value",
    "C83_list_value",
    "C83_total_list_value",
    "C83_total_list_assignable",
    "C83_single_assignable",
    "C83_operation_element",
    "C83_instruction",
    "C83_void_func_call",
    "C83_operation_func_call"
   ],
   "note": ""
  },
  {
   "property": "C84",
   "status": "proved",
   "theorems": [
    "C84_one_or_more",
    "C84_assignables",
    "C84_variable_declarations",
    "C84_variable_declarations_are_not_empty_refuted"
   ],
   "note": ""
  },
  {
   "property": "C85",
   "status": "proved",
   "theorems": [
    "C85_type",
    "C85_types_compare",
    "C85_value",
    "C85_now_fixes_the_value",
    "C85_a_later_value_is_used_refuted"
   ],
   "note": ""
  },
  {
   "property": "C86",
   "status": "proved",
   "theorems": [
    "C86_roots_shrink",
    "C86_trigger_looks_inside",
    "C86_calls_are_bounded",
    "C86_execute_always_ends"
   ],
   "note": ""
  },
  {
   "property": "C87",
   "status": "proved",
   "theorems": [
    "C87_right_reading_is_possible",
    "C87_only_reading_when_clear",
    "C87_clear_meaning_is_unique"
   ],
   "note": ""
  },
  {
   "property": "C88",
   "status": "proved",
   "theorems": [
    "C88_grammatical_never_fails",
    "C88_program_gives_a_program",
    "C88_one_name_panics"
   ],
   "note": ""
  },
  {
   "property": "C89",
   "status": "proved",
   "theorems": [
    "C89_left_operand_may_be_the_right_one",
    "C89_ab_minus_cd",
    "C89_always_the_right_reading_refuted"
   ],
   "note": ""
  },
  {
   "property": "C90",
   "status": "proved",
   "theorems": [
    "C90_values",
    "C90_new_names",
    "C90_declarations",
    "C90_names",
    "C90_for_index_may_be_the_value"
   ],
   "note": ""
  },
  {
   "property": "C91",
   "status": "proved",
   "theorems": [
    "C91_apart_channels_one_answer",
    "C91_ast_apart_channels",
    "C91_shipped_channels_ast",
    "C91_shipped_channels_root",
    "C91_shipped_channels_tests",
    "C91_prefix_and_constants_refuted"
   ],
   "note": ""
  },
  {
   "property": "C92",
   "status": "proved",
   "theorems": [
    "C92_root_exists",
    "C92_conforming_trees_mean_something",
    "C92_never_fails",
    "C92_without_kinds_refuted",
    "C92_parser_cuts_short"
   ],
   "note": ""
  },
  {
   "property": "C93",
   "status": "proved",
   "theorems": [
    "C93_accepted_trees_conform",
    "C93_ast_conforms",
    "C93_shipped_conforms"
   ],
   "note": ""
  },
  {
   "property": "C94",
   "status": "proved",
   "theorems": [
    "C94_guarded_recursion_ends",
    "C94_guarded_recursion_answers",
    "C94_shipped_always_answers",
    "C94_shipped_tests_always_report"
   ],
   "note": ""
  },
  {
   "property": "C95",
   "status": "proved",
   "theorems": [
    "C95_mistakes_are_made_by_the_builders",
    "C95_token",
    "C95_token_content",
    "C95_line_match",
    "C95_matches",
    "C95_rule_match",
    "C95_rule_match_result",
    "C95_specifier",
    "C95_token_match",
    "C95_token_result",
    "C95_token_result_matches",
    "C95_result",
    "C95_mistake",
    "C95_mistake_index",
    "C95_valid_not",
    "C95_specifier_do_not_match",
    "C95_contains_next",
    "C95_cardinality_is_invalid",
    "C95_contains_prefix",
    "C95_tree_token",
    "C95_tree_line",
    "C95_tree_rule",
    "C95_tree_tokens",
    "C95_tree_result",
    "C95_next_element",
    "C95_match",
    "C95_skip_match",
    "C95_block_match",
    "C95_mistake_content",
    "C95_mistake_path",
    "C95_answer",
    "C95_tree_match",
    "C95_every_number_is_accepted_refuted",
    "C95_last_alternative_is_used_refuted"
   ],
   "note": ""
  },
  {
   "property": "C96",
   "status": "proved",
   "theorems": [
    "C96_path",
    "C96_element",
    "C96_path_line",
    "C96_recursive_token",
    "C96_path_rule",
    "C96_path_specifier",
    "C96_path_token",
    "C96_token_path",
    "C96_next",
    "C96_choice",
    "C96_serie",
    "C96_group",
    "C96_pattern",
    "C96_discovery",
    "C96_rule_element",
    "C96_rule",
    "C96_rule_pattern",
    "C96_grammar_block",
    "C96_token_reference",
    "C96_grammar_element",
    "C96_token_specifier",
    "C96_grammar_lines",
    "C96_grammar_token",
    "C96_suite_line",
    "C96_suite",
    "C96_suite_application",
    "C96_link",
    "C96_include",
    "C96_references",
    "C96_content",
    "C96_rule_result",
    "C96_path_container",
    "C96_path_instruction",
    "C96_pattern_container",
    "C96_grammar_content",
    "C96_grammar_instruction",
    "C96_token_specifier_content",
    "C96_instructions_alike_refuted"
   ],
   "note": ""
  },
  {
   "property": "C97",
   "status": "proved",
   "theorems": [
    "C97_not_block_first",
    "C97_answers_with_a_not_block"
   ],
   "note": ""
  },
  {
   "property": "C98",
   "status": "proved",
   "theorems": [
    "C98_built_iff_not_empty",
    "C98_all_in_order",
    "C98_last_link_of_a_local_name",
    "C98_last_link_of_a_reference",
    "C98_links_of_a_text",
    "C98_every_link_is_found_refuted"
   ],
   "note": ""
  },
  {
   "property": "C99",
   "status": "proved",
   "theorems": [
    "C99_reads_the_longest_line",
    "C99_refuses_what_no_line_reads",
    "C99_one_longest_reading"
   ],
   "note": ""
  },
  {
   "property": "C100",
   "status": "proved",
   "theorems": [
    "C100_program_executes",
    "C100_text_means_one_program",
    "C100_repeated_first_instruction_refuted"
   ],
   "note": ""
  },
  {
   "property": "C101",
   "status": "proved",
   "theorems": [
    "C101_chain_builders",
    "C101_card_builders",
    "C101_app_builders",
    "C101_program_builders",
    "C101_lexer_builders",
    "C101_inner_builders"
   ],
   "note": ""
  },
  {
   "property": "C102",
   "status": "proved",
   "theorems": [
    "C102_base64_accepted_exactly",
    "C102_base64_written_exactly",
    "C102_hex_accepted_exactly",
    "C102_hex_written_exactly",
    "C102_decrypt_needs_base64",
    "C102_hash_from_string_exactly"
   ],
   "note": ""
  },
  {
   "property": "C103",
   "status": "proved",
   "theorems": [
    "C103_private_key_built_exactly",
    "C103_public_key_built_exactly",
    "C103_factory_exactly",
    "C103_private_text_exactly",
    "C103_public_text_exactly",
    "C103_text_keys_work_together",
    "C103_public_hash_binds"
   ],
   "note": ""
  },
  {
   "property": "C104",
   "status": "proved",
   "theorems": [
    "C104_rule_finds_characters",
    "C104_answers_are_characters",
    "C104_grammar_texts",
    "C104_paths",
    "C104_trees_cut_no_character",
    "C104_shipped_grammar",
    "C104_every_field_refuted",
    "C104_example"
   ],
   "note": ""
  },
  {
   "property": "C105",
   "status": "proved",
   "theorems": [
    "C105_shipped_executes_list_declarations",
    "C105_reads_by_choice",
    "C105_refuses_what_no_line_reads",
    "C105_one_reading",
    "C105_extends_the_longest_line",
    "C105_example_every_nesting",
    "C105_shipped_reads_list_declarations",
    "C105_list_instructions_refuted"
   ],
   "note": ""
  },
  {
   "property": "C106",
   "status": "proved",
   "theorems": [
    "C106_literals_mean_what_is_written"
   ],
   "note": ""
  },
  {
   "property": "C107",
   "status": "proved",
   "theorems": [
    "C107_assignments_mean_what_is_written",
    "C107_assignments_alone",
    "C107_true_is_the_name_of_a_list",
    "C107_no_blank_after_a_type"
   ],
   "note": ""
  },
  {
   "property": "C108",
   "status": "proved",
   "theorems": [
    "C108_container",
    "C108_node",
    "C108_root",
    "C108_nodes",
    "C108_containers",
    "C108_nodes_by_key",
    "C108_key_is_the_name_refuted",
    "C108_nodes_of_a_tree",
    "C108_parts_by_name"
   ],
   "note": ""
  },
  {
   "property": "C109",
   "status": "proved",
   "theorems": [
    "C109_accepted_trees_are_spelled",
    "C109_ast_is_spelled",
    "C109_shipped_is_spelled",
    "C109_spelled_conforms",
    "C109_every_text_is_read",
    "C109_constants_are_themselves"
   ],
   "note": ""
  },
  {
   "property": "C110",
   "status": "proved",
   "theorems": [
    "C110_spelled_trees_do_not_panic",
    "C110_accepted_texts_do_not_panic"
   ],
   "note": ""
  }
 ]
}