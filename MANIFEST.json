{
 "claims": [
  {
   "property": "C01",
   "status": "proved",
   "theorems": [
    "C01_parse_recovers_the_pieces"
   ],
   "note": "statement is the documented grammar (Spec_Grammar.v), independent of the recognisers"
  },
  {
   "property": "C02",
   "status": "proved",
   "theorems": [
    "C02_only_statements_are_accepted",
    "C02_reading_is_unique",
    "C02_other_lines_are_syntax_errors"
   ],
   "note": ""
  },
  {
   "property": "C03",
   "status": "proved",
   "theorems": [
    "C03_parser_is_safe_and_total"
   ],
   "note": ""
  },
  {
   "property": "C04",
   "status": "proved",
   "theorems": [
    "C04_recognisers_agree_with_grammar"
   ],
   "note": "is_keyword_message / is_statement included; fuel adequacy is part of the equivalence"
  },
  {
   "property": "C05",
   "status": "proved",
   "theorems": [
    "C05_string_literals"
   ],
   "note": ""
  },
  {
   "property": "C06",
   "status": "proved",
   "theorems": [
    "C06_every_literal_denotes_one_string",
    "C06_different_strings_print_differently",
    "C06_get_prints_the_value",
    "C06_set_then_get",
    "C06_create_then_get"
   ],
   "note": ""
  },
  {
   "property": "C07",
   "status": "proved",
   "theorems": [
    "C07_resendable_iff",
    "C07_printed_strings_are_literals_refuted",
    "C07_stored_literals_are_resendable"
   ],
   "note": ""
  },
  {
   "property": "C08",
   "status": "proved",
   "theorems": [
    "C08_every_literal_denotes_one_integer",
    "C08_stored_integers_fit",
    "C08_get_round_trip",
    "C08_different_integers_print_differently",
    "C08_set",
    "C08_set_then_get",
    "C08_create_then_get"
   ],
   "note": ""
  },
  {
   "property": "C09",
   "status": "proved",
   "theorems": [
    "C09_exact_arithmetic",
    "C09_other_arguments_are_refused"
   ],
   "note": ""
  },
  {
   "property": "C10",
   "status": "proved",
   "theorems": [
    "C10_arithmetic_undefined_iff",
    "C10_arithmetic_with_a_float_literal",
    "C10_set_undefined_iff",
    "C10_set_with_a_float_literal",
    "C10_create_undefined_iff",
    "C10_create_with_a_float_literal",
    "C10_overflow_is_reachable"
   ],
   "note": ""
  },
  {
   "property": "C11",
   "status": "proved",
   "theorems": [
    "C11_get_prints_rounded",
    "C11_printed_text_is_unique",
    "C11_nearest_numeral"
   ],
   "note": ""
  },
  {
   "property": "C12",
   "status": "proved",
   "theorems": [
    "C12_rounded_is_nearest",
    "C12_set",
    "C12_set_refuses_other_texts",
    "C12_create"
   ],
   "note": ""
  },
  {
   "property": "C13",
   "status": "proved",
   "theorems": [
    "C13_comparisons",
    "C13_any_tolerance",
    "C13_trichotomy",
    "C13_swap",
    "C13_swap_mixed",
    "C13_other_arguments_are_refused",
    "C13_negative_tolerance_refuted"
   ],
   "note": ""
  },
  {
   "property": "C14",
   "status": "proved",
   "theorems": [
    "C14_strict_total_order",
    "C14_equality_is_identity"
   ],
   "note": ""
  },
  {
   "property": "C15",
   "status": "proved",
   "theorems": [
    "C15_reflexive",
    "C15_symmetric",
    "C15_transitive_refuted",
    "C15_transitive_fails_for_positive_tolerances",
    "C15_infinite_tolerance",
    "C15_transitive_at_zero"
   ],
   "note": ""
  },
  {
   "property": "C16",
   "status": "proved",
   "theorems": [
    "C16_sort_of_weakly_ordered_values",
    "C16_sort",
    "C16_sort_is_defined",
    "C16_a_sort_exists"
   ],
   "note": ""
  },
  {
   "property": "C17",
   "status": "proved",
   "theorems": [
    "C17_undefined_iff",
    "C17_sort_is_defined_refuted",
    "C17_defined_at_zero"
   ],
   "note": ""
  },
  {
   "property": "C18",
   "status": "proved",
   "theorems": [
    "C18_effect",
    "C18_otherwise_refused",
    "C18_effect_unique",
    "C18_index_beyond_32_bits",
    "C18_other_messages_are_refused"
   ],
   "note": ""
  },
  {
   "property": "C19",
   "status": "proved",
   "theorems": [
    "C19_effect",
    "C19_otherwise_refused",
    "C19_equal_is_identical"
   ],
   "note": ""
  },
  {
   "property": "C20",
   "status": "proved",
   "theorems": [
    "C20_effect",
    "C20_otherwise_refused",
    "C20_effect_unique",
    "C20_index_beyond_32_bits",
    "C20_other_messages_are_refused"
   ],
   "note": ""
  },
  {
   "property": "C21",
   "status": "proved",
   "theorems": [
    "C21_contains",
    "C21_get",
    "C21_size",
    "C21_isEmpty",
    "C21_listing_unique",
    "C21_add",
    "C21_remove",
    "C21_clear",
    "C21_every_set_has_a_history",
    "C21_history_determines_the_set",
    "C21_otherwise_refused",
    "C21_other_messages_are_refused",
    "C21_element_beyond_32_bits"
   ],
   "note": ""
  },
  {
   "property": "C22",
   "status": "proved",
   "theorems": [
    "C22_getValueForKey",
    "C22_containsKey",
    "C22_get",
    "C22_keys",
    "C22_values",
    "C22_size",
    "C22_isEmpty",
    "C22_associate",
    "C22_removeKey",
    "C22_clear",
    "C22_every_dictionary_has_a_history",
    "C22_history_determines_the_map",
    "C22_wrong_number_of_arguments",
    "C22_bad_key",
    "C22_bad_association",
    "C22_other_messages_are_refused"
   ],
   "note": ""
  },
  {
   "property": "C23",
   "status": "proved",
   "theorems": [
    "C23_set_undefined_iff",
    "C23_contains",
    "C23_add",
    "C23_remove",
    "C23_dictionary_undefined_iff",
    "C23_associate_undefined_iff",
    "C23_getValueForKey",
    "C23_containsKey",
    "C23_associate",
    "C23_removeKey",
    "C23_no_two_equal_elements",
    "C23_no_two_equal_keys",
    "C23_never_the_same_element_twice",
    "C23_never_the_same_key_twice",
    "C23_separated_is_usable",
    "C23_separated_keys_are_usable",
    "C23_usable_at_zero",
    "C23_keys_usable_at_zero",
    "C23_negative_tolerance_refuted",
    "C23_close_values_refuted",
    "C23_raising_the_tolerance_refuted"
   ],
   "note": ""
  },
  {
   "property": "C24",
   "status": "proved",
   "theorems": [
    "C24_create_on_a_free_name",
    "C24_create_on_a_used_name",
    "C24_createIfNotExists_on_a_used_name",
    "C24_other_messages_to_a_type",
    "C24_bad_creation"
   ],
   "note": ""
  },
  {
   "property": "C25",
   "status": "proved",
   "theorems": [
    "C25_listVariables",
    "C25_listNamespaces",
    "C25_listVariablesOfNamespace",
    "C25_deleteVariable",
    "C25_deleteVariable_of_an_unused_name",
    "C25_deleteVariablesOfNamespace",
    "C25_bad_names",
    "C25_live_names_are_variables"
   ],
   "note": ""
  },
  {
   "property": "C26",
   "status": "proved",
   "theorems": [
    "C26_message_to_a_variable",
    "C26_message_to_a_type",
    "C26_message_to_Context",
    "C26_message_to_Connection",
    "C26_not_a_statement"
   ],
   "note": ""
  },
  {
   "property": "C27",
   "status": "proved",
   "theorems": [
    "C27_errors_change_nothing",
    "C27_syntax_error_iff_not_a_statement"
   ],
   "note": ""
  },
  {
   "property": "C28",
   "status": "proved",
   "theorems": [
    "C28_reachable_data_is_well_typed",
    "C28_no_comparison_or_unknown_error",
    "C28_memory_safety",
    "C28_every_line_is_answered"
   ],
   "note": ""
  },
  {
   "property": "C29",
   "status": "proved",
   "theorems": [
    "C29_only_for_question_marks",
    "C29_otherwise_the_name_fixes_the_number"
   ],
   "note": ""
  },
  {
   "property": "C30",
   "status": "proved",
   "theorems": [
    "C30_refusal",
    "C30_unauthenticated_sessions_change_no_data",
    "C30_unauthenticated_sessions_learn_nothing",
    "C30_unauthenticated_sessions_do_no_harm"
   ],
   "note": ""
  },
  {
   "property": "C31",
   "status": "proved",
   "theorems": [
    "C31_authenticated_only_by_the_password",
    "C31_the_password_authenticates"
   ],
   "note": ""
  },
  {
   "property": "C32",
   "status": "proved",
   "theorems": [
    "C32_usable_passwords",
    "C32_every_password_is_usable_refuted"
   ],
   "note": ""
  },
  {
   "property": "C33",
   "status": "proved",
   "theorems": [
    "C33_every_stream_has_one_division_into_lines",
    "C33_executed_lines_are_the_lines_of_the_stream",
    "C33_segmentation_is_irrelevant",
    "C33_every_complete_line_can_be_processed"
   ],
   "note": ""
  },
  {
   "property": "C34",
   "status": "proved",
   "theorems": [
    "C34_one_answer_line_per_line",
    "C34_nothing_after_close"
   ],
   "note": ""
  },
  {
   "property": "C35",
   "status": "proved",
   "theorems": [
    "C35_every_schedule_is_serialisable",
    "C35_histories_only_grow",
    "C35_the_order_determines_everything",
    "C35_server_data_are_reachable"
   ],
   "note": ""
  },
  {
   "property": "C36",
   "status": "proved",
   "theorems": [
    "C36_answers_are_single_lines"
   ],
   "note": ""
  },
  {
   "property": "C37",
   "status": "proved",
   "theorems": [
    "C37_every_statement_is_logged",
    "C37_the_log_is_the_history",
    "C37_what_is_written_is_determined"
   ],
   "note": ""
  },
  {
   "property": "C38",
   "status": "proved",
   "theorems": [
    "C38_setFloatPrecision",
    "C38_setFloatPrecision_refuses",
    "C38_getFloatPrecision",
    "C38_setFloatComparisonTolerance",
    "C38_setFloatComparisonTolerance_refuses",
    "C38_getFloatComparisonTolerance",
    "C38_precision_survives",
    "C38_tolerance_survives",
    "C38_set_then_get"
   ],
   "note": ""
  },
  {
   "property": "C39",
   "status": "proved",
   "theorems": [
    "C39_character_predicates"
   ],
   "note": ""
  },
  {
   "property": "C40",
   "status": "proved",
   "theorems": [
    "C40_delivered_iff_sent_at_once",
    "C40_answers_can_be_arbitrarily_long",
    "C40_every_answer_is_delivered_refuted"
   ],
   "note": ""
  },
  {
   "property": "C41",
   "status": "proved",
   "theorems": [
    "C41_lists_are_unambiguous",
    "C41_sets_are_unambiguous",
    "C41_vector_answers_are_unambiguous"
   ],
   "note": ""
  },
  {
   "property": "C42",
   "status": "proved",
   "theorems": [
    "C42_float_arithmetic",
    "C42_other_arguments_are_refused",
    "C42_never_undefined",
    "C42_ieee_result_is_unique"
   ],
   "note": ""
  },
  {
   "property": "C43",
   "status": "proved",
   "theorems": [
    "C43_accept_errors_are_final",
    "C43_otherwise_every_connection_is_accepted"
   ],
   "note": ""
  },
  {
   "property": "C44",
   "status": "proved",
   "theorems": [
    "C44_other_sessions_are_untouched",
    "C44_only_processing_a_line_touches_data",
    "C44_nothing_after_failure"
   ],
   "note": ""
  },
  {
   "property": "C45",
   "status": "proved",
   "theorems": [
    "C45_kinds_of_undefined_behaviour",
    "C45_undefined_behaviour_has_a_cause"
   ],
   "note": ""
  },
  {
   "property": "C46",
   "status": "proved",
   "theorems": [
    "C46_creation",
    "C46_one_value",
    "C46_of_the_type",
    "C46_every_literal_has_a_value",
    "C46_printed_values_read_back",
    "C46_set"
   ],
   "note": ""
  },
  {
   "property": "C47",
   "status": "proved",
   "theorems": [
    "C47_effect",
    "C47_effect_unique",
    "C47_set_refuses_other_texts",
    "C47_wrong_number_of_arguments",
    "C47_other_messages_are_refused"
   ],
   "note": ""
  },
  {
   "property": "C48",
   "status": "proved",
   "theorems": [
    "C48_dictionaries_are_unambiguous",
    "C48_dictionary_answers_are_unambiguous"
   ],
   "note": ""
  },
  {
   "property": "C49",
   "status": "proved",
   "theorems": [
    "C49_connection_messages",
    "C49_connection_messages_are_complete",
    "C49_connection_effect_is_unique",
    "C49_only_close_disconnects",
    "C49_other_messages_to_Context_are_refused"
   ],
   "note": ""
  },
  {
   "property": "C50",
   "status": "proved",
   "theorems": [
    "C50_help",
    "C50_bad_command_line",
    "C50_start",
    "C50_server_data_are_reachable",
    "C50_defaults",
    "C50_settings_are_validated_refuted",
    "C50_port_is_the_one_given_refuted",
    "C50_stops_iff_at_rest",
    "C50_runs_until_accept_fails",
    "C50_rest_is_final"
   ],
   "note": ""
  },
  {
   "property": "C51",
   "status": "proved",
   "theorems": [
    "C51_ltrim",
    "C51_rtrim",
    "C51_trim",
    "C51_escape",
    "C51_unescape",
    "C51_escape_round_trip",
    "C51_escape_round_trip_refuted",
    "C51_character_classes",
    "C51_starts_and_ends",
    "C51_remove_spaces"
   ],
   "note": ""
  },
  {
   "property": "C52",
   "status": "proved",
   "theorems": [
    "C52_effect_depends_on_pieces_and_data",
    "C52_undefined_behaviour_depends_on_pieces_and_data",
    "C52_same_pieces",
    "C52_surrounding_space",
    "C52_locality"
   ],
   "note": ""
  },
  {
   "property": "C53",
   "status": "proved",
   "theorems": [
    "C53_statements_to_different_variables_commute"
   ],
   "note": ""
  },
  {
   "property": "C54",
   "status": "proved",
   "theorems": [
    "C54_records_reproduce_the_data",
    "C54_the_log_file_reproduces_the_data"
   ],
   "note": ""
  },
  {
   "property": "C55",
   "status": "proved",
   "theorems": [
    "C55_statements_end_at_one_place",
    "C55_a_record_is_unambiguous",
    "C55_the_log_text_tells_the_records",
    "C55_the_log_text_determines_the_data"
   ],
   "note": ""
  },
  {
   "property": "C56",
   "status": "proved",
   "theorems": [
    "C56_any_sort_gives_the_same",
    "C56_any_sort_has_the_same_undefined_behaviour",
    "C56_histories",
    "C56_float_sorts_agree_refuted"
   ],
   "note": ""
  },
  {
   "property": "C57",
   "status": "proved",
   "theorems": [
    "C57_literals",
    "C57_every_storable_value",
    "C57_only_storable_values",
    "C57_every_state",
    "C57_exactly"
   ],
   "note": ""
  },
  {
   "property": "C58",
   "status": "proved",
   "theorems": [
    "C58_queue",
    "C58_queue_under_any_schedule",
    "C58_stack"
   ],
   "note": ""
  },
  {
   "property": "C59",
   "status": "proved",
   "theorems": [
    "C59_counter",
    "C59_counter_under_any_schedule"
   ],
   "note": ""
  },
  {
   "property": "C60",
   "status": "proved",
   "theorems": [
    "C60_in_use_iff_held",
    "C60_obtained_iff_free",
    "C60_mutual_exclusion",
    "C60_mutual_exclusion_under_any_schedule"
   ],
   "note": ""
  },
  {
   "property": "C61",
   "status": "proved",
   "theorems": [
    "C61_repetition_changes_nothing",
    "C61_accumulating_messages_add_up",
    "C61_any_number_of_repetitions"
   ],
   "note": ""
  },
  {
   "property": "C62",
   "status": "proved",
   "theorems": [
    "C62_where_values_come_from",
    "C62_elements_were_inserted",
    "C62_size_of_the_data",
    "C62_length_of_texts",
    "C62_of_a_server"
   ],
   "note": ""
  },
  {
   "property": "C63",
   "status": "proved",
   "theorems": [
    "C63_alone",
    "C63_group_under_any_schedule",
    "C63_one_client_under_any_schedules"
   ],
   "note": ""
  },
  {
   "property": "C64",
   "status": "proved",
   "theorems": [
    "C64_documented_sessions",
    "C64_whatever_the_others_do",
    "C64_under_any_schedule"
   ],
   "note": ""
  },
  {
   "property": "C65",
   "status": "proved",
   "theorems": [
    "C65_every_actor_has_a_chapter",
    "C65_interface",
    "C65_answers",
    "C65_arguments",
    "C65_refusals",
    "C65_manual_is_unambiguous"
   ],
   "note": ""
  },
  {
   "property": "C66",
   "status": "proved",
   "theorems": [
    "C66_every_success_is_an_effect",
    "C66_every_effect_happens",
    "C66_float_vectors_are_sorted",
    "C66_succeeds_iff",
    "C66_effects_are_unique",
    "C66_every_line_has_its_effect",
    "C66_every_schedule_follows_the_specification"
   ],
   "note": ""
  },
  {
   "property": "C67",
   "status": "proved",
   "theorems": [
    "C67_which_error",
    "C67_error_is_unique",
    "C67_every_outcome",
    "C67_the_error"
   ],
   "note": ""
  },
  {
   "property": "C68",
   "status": "proved",
   "theorems": [
    "C68_every_second_has_one_stamp",
    "C68_stamps_tell_the_time",
    "C68_stamps_are_in_order",
    "C68_every_record_is_stamped",
    "C68_the_buffer_suffices",
    "C68_log_text",
    "C68_the_log_is_in_order",
    "C68_order_across_clock_changes_refuted",
    "C68_the_log_tells_what_was_done_and_when"
   ],
   "note": ""
  },
  {
   "property": "C69",
   "status": "proved",
   "theorems": [
    "C69_undefined_iff",
    "C69_three_outcomes",
    "C69_refused_iff",
    "C69_every_crash",
    "C69_undefined_statements_stop_the_server"
   ],
   "note": ""
  },
  {
   "property": "C70",
   "status": "proved",
   "theorems": [
    "C70_45_places_show_every_value",
    "C70_45_places_show_every_list",
    "C70_44_places_do_not_suffice",
    "C70_same_data_iff_indistinguishable"
   ],
   "note": ""
  },
  {
   "property": "C71",
   "status": "proved",
   "theorems": [
    "C71_one_run",
    "C71_no_server",
    "C71_files_only_grow",
    "C71_nothing_written_is_lost",
    "C71_a_restart_forgets",
    "C71_what_a_run_adds_determines_its_data",
    "C71_the_log_file_holds_the_password",
    "C71_the_whole_log_determines_the_data_refuted"
   ],
   "note": ""
  },
  {
   "property": "C72",
   "status": "proved",
   "theorems": [
    "C72_linearizable",
    "C72_answered_lines_are_seen",
    "C72_first_sent_first_executed_refuted"
   ],
   "note": ""
  },
  {
   "property": "C73",
   "status": "proved",
   "theorems": [
    "C73_undo",
    "C73_rollback",
    "C73_other_pairs_refuted"
   ],
   "note": ""
  },
  {
   "property": "C74",
   "status": "proved",
   "theorems": [
    "C74_every_line_is_answered",
    "C74_answers_stay",
    "C74_without_taking_answers_refuted"
   ],
   "note": ""
  },
  {
   "property": "C75",
   "status": "proved",
   "theorems": [
    "C75_answers_fit_together",
    "C75_one_succeeds_if_the_other_does"
   ],
   "note": ""
  },
  {
   "property": "C76",
   "status": "proved",
   "theorems": [
    "C76_every_order_can_happen",
    "C76_exactly_the_possible_histories"
   ],
   "note": ""
  },
  {
   "property": "C77",
   "status": "proved",
   "theorems": [
    "C77_lines_that_do_not_send_it",
    "C77_a_client_learns_only_that_its_guesses_are_wrong",
    "C77_a_password_nobody_sends_cannot_be_seen"
   ],
   "note": ""
  },
  {
   "property": "C78",
   "status": "proved",
   "theorems": [
    "C78_settings_stay_settable",
    "C78_every_server_can_be_rebuilt",
    "C78_the_copy_serves_like_the_original",
    "C78_a_restored_server_serves_like_the_original"
   ],
   "note": ""
  },
  {
   "property": "C79",
   "status": "proved",
   "theorems": [
    "C79_precision_is_only_for_display",
    "C79_precision_does_not_cause_undefined_behaviour",
    "C79_for_many_lines",
    "C79_setting_the_precision_changes_no_value"
   ],
   "note": ""
  },
  {
   "property": "C80",
   "status": "proved",
   "theorems": [
    "C80_histories",
    "C80_servers_without_floats",
    "C80_tolerance_matters_for_floats_only",
    "C80_undefined_behaviour_and_tolerance"
   ],
   "note": ""
  },
  {
   "property": "C81",
   "status": "proved",
   "theorems": [
    "C81_names_do_not_matter",
    "C81_undefined_behaviour_and_names",
    "C81_names_do_not_matter_ever",
    "C81_fresh_servers_correspond",
    "C81_every_line_can_be_renamed"
   ],
   "note": ""
  },
  {
   "property": "C82",
   "status": "proved",
   "theorems": [
    "C82_independent_lines_commute",
    "C82_exchanging_independent_lines",
    "C82_a_shared_set_loses_nothing",
    "C82_shared_sets_converge",
    "C82_a_shared_set_under_any_schedule"
   ],
   "note": ""
  },
  {
   "property": "C83",
   "status": "proved",
   "theorems": [
    "C83_a_fresh_server_is_tame",
    "C83_the_data_stay_tame",
    "C83_cautious_lines_are_safe",
    "C83_cautious_clients_do_no_harm",
    "C83_counters_do_not_overflow"
   ],
   "note": ""
  },
  {
   "property": "C84",
   "status": "proved",
   "theorems": [
    "C84_answered_means_recorded",
    "C84_recovery"
   ],
   "note": ""
  },
  {
   "property": "C85",
   "status": "proved",
   "theorems": [
    "C85_renumbering",
    "C85_any_assignment",
    "C85_one_client_can_do_it_all"
   ],
   "note": ""
  },
  {
   "property": "C86",
   "status": "proved",
   "theorems": [
    "C86_last_writer_wins",
    "C86_the_last_value_set",
    "C86_reading_a_key",
    "C86_reading_an_object",
    "C86_on_every_schedule"
   ],
   "note": ""
  },
  {
   "property": "C87",
   "status": "proved",
   "theorems": [
    "C87_get_shows_the_variable",
    "C87_no_answer_is_longer_than_get",
    "C87_allIndexesOf",
    "C87_no_listing_is_longer_than_listVariables",
    "C87_where_long_answers_come_from"
   ],
   "note": ""
  },
  {
   "property": "C88",
   "status": "proved",
   "theorems": [
    "C88_every_line_is_described",
    "C88_everything_described_happens",
    "C88_the_answers_described_are_given",
    "C88_every_history_is_described",
    "C88_every_described_history_happens",
    "C88_exactly_the_described_histories",
    "C88_one_outcome",
    "C88_described_or_undefined",
    "C88_every_schedule_is_described",
    "C88_every_description_has_a_schedule"
   ],
   "note": ""
  },
  {
   "property": "C89",
   "status": "proved",
   "theorems": [
    "C89_few_short_lines",
    "C89_answers_of_small_data",
    "C89_the_length_of_a_variable",
    "C89_a_server_that_does_not_fail"
   ],
   "note": ""
  },
  {
   "property": "C90",
   "status": "proved",
   "theorems": [
    "C90_publication",
    "C90_on_every_schedule"
   ],
   "note": ""
  },
  {
   "property": "C91",
   "status": "proved",
   "theorems": [
    "C91_at_most_one_inside",
    "C91_nobody_else",
    "C91_nothing_changes",
    "C91_no_change_is_lost",
    "C91_on_every_schedule"
   ],
   "note": ""
  },
  {
   "property": "C92",
   "status": "proved",
   "theorems": [
    "C92_barrier",
    "C92_on_every_schedule"
   ],
   "note": ""
  },
  {
   "property": "C93",
   "status": "proved",
   "theorems": [
    "C93_sizes_are_paid_for",
    "C93_no_size_overflows"
   ],
   "note": ""
  },
  {
   "property": "C94",
   "status": "proved",
   "theorems": [
    "C94_contents",
    "C94_following",
    "C94_on_every_schedule",
    "C94_one_after_the_other"
   ],
   "note": ""
  },
  {
   "property": "C95",
   "status": "proved",
   "theorems": [
    "C95_a_counter_does_not_go_back",
    "C95_a_set_forgets_nothing",
    "C95_on_every_schedule"
   ],
   "note": ""
  }
 ]
}