{
 "claims": [
  {
   "property": "C01",
   "status": "proved",
   "theorems": [
    "C01_serialized_form_is_readable",
    "C01_serialization_injective_and_prefix_free",
    "C01_collision_at_65536_refuted",
    "C01_panics_exactly_above_65536",
    "C01_both_sides_hash_the_credential",
    "C01_oprf_inputs_differ"
   ],
   "note": ""
  },
  {
   "property": "C02",
   "status": "proved",
   "theorems": [
    "C02_bucket_id_is_leading_bits",
    "C02_bad_bit_size_panics"
   ],
   "note": ""
  },
  {
   "property": "C03",
   "status": "proved",
   "theorems": [
    "C03_hex_form",
    "C03_hex_injective"
   ],
   "note": ""
  },
  {
   "property": "C04",
   "status": "proved",
   "theorems": [
    "C04_same_bucket",
    "C04_bucket_of_username",
    "C04_request_bucket",
    "C04_bucket_independent_of_password_and_blind",
    "C04_request_total"
   ],
   "note": ""
  },
  {
   "property": "C05",
   "status": "proved",
   "theorems": [
    "C05_entry_roundtrip",
    "C05_entry_format"
   ],
   "note": ""
  },
  {
   "property": "C06",
   "status": "proved",
   "theorems": [
    "C06_entry_size",
    "C06_size_limit"
   ],
   "note": ""
  },
  {
   "property": "C07",
   "status": "proved",
   "theorems": [
    "C07_key_check_exact",
    "C07_header_errors"
   ],
   "note": ""
  },
  {
   "property": "C08",
   "status": "proved",
   "theorems": [
    "C08_finalize_total_64bit",
    "C08_finalize_diverges_32bit_refuted",
    "C08_finalize_panics_32bit_refuted"
   ],
   "note": ""
  },
  {
   "property": "C09",
   "status": "proved",
   "theorems": [
    "C09_first_match",
    "C09_no_match"
   ],
   "note": ""
  },
  {
   "property": "C10",
   "status": "proved",
   "theorems": [
    "C10_decomposition",
    "C10_short_tail_ignored",
    "C10_overrun_is_an_error"
   ],
   "note": ""
  },
  {
   "property": "C11",
   "status": "proved",
   "theorems": [
    "C11_stored_credential_is_found"
   ],
   "note": ""
  },
  {
   "property": "C12",
   "status": "proved",
   "theorems": [
    "C12_not_stored_not_in_breach",
    "C12_answer_or_library_error"
   ],
   "note": ""
  },
  {
   "property": "C13",
   "status": "proved",
   "theorems": [
    "C13_flag_validity",
    "C13_flag_status",
    "C13_unknown_flag_is_refused",
    "C13_known_flag_is_stored",
    "C13_stored_means_known"
   ],
   "note": ""
  },
  {
   "property": "C14",
   "status": "proved",
   "theorems": [
    "C14_every_query_after_insert",
    "C14_password_is_found",
    "C14_variants_are_found",
    "C14_username_is_found",
    "C14_other_queries_unchanged",
    "C14_insert_succeeds",
    "C14_breached_reported_similar_refuted",
    "C14_username_reported_similar_refuted"
   ],
   "note": ""
  },
  {
   "property": "C15",
   "status": "proved",
   "theorems": [
    "C15_other_keys_unchanged",
    "C15_appends_whole_entries",
    "C15_refused_first_entry_changes_nothing",
    "C15_long_metadata_changes_nothing"
   ],
   "note": ""
  },
  {
   "property": "C16",
   "status": "proved",
   "theorems": [
    "C16_hit_is_stable"
   ],
   "note": ""
  },
  {
   "property": "C17",
   "status": "proved",
   "theorems": [
    "C17_store_is_atomic",
    "C17_no_call_is_lost",
    "C17_get_returns_the_value_of_one_instant",
    "C17_writers_exclude_all"
   ],
   "note": ""
  },
  {
   "property": "C18",
   "status": "proved",
   "theorems": [
    "C18_get_result_never_changes",
    "C18_no_data_race",
    "C18_shared_put_refuted",
    "C18_shared_put_races_refuted"
   ],
   "note": ""
  },
  {
   "property": "C19",
   "status": "proved",
   "theorems": [
    "C19_wrong_version_refused",
    "C19_accepted_version_matches_and_is_echoed",
    "C19_high_bits_ignored",
    "C19_finalize_wrong_version_refused",
    "C19_finalize_high_bits_ignored"
   ],
   "note": ""
  },
  {
   "property": "C20",
   "status": "proved",
   "theorems": [
    "C20_exact_bucket",
    "C20_bad_hex_refused",
    "C20_only_the_requested_bucket",
    "C20_never_panics",
    "C20_non_canonical_id_finds_nothing"
   ],
   "note": ""
  },
  {
   "property": "C21",
   "status": "proved",
   "theorems": [
    "C21_roundtrip",
    "C21_unmarshal_fails_exactly_below_37",
    "C21_remarshal"
   ],
   "note": ""
  },
  {
   "property": "C22",
   "status": "proved",
   "theorems": [
    "C22_other_suites_never_roundtrip",
    "C22_cut_at_33"
   ],
   "note": ""
  },
  {
   "property": "C23",
   "status": "proved",
   "theorems": [
    "C23_new_client_iff",
    "C23_new_server_iff",
    "C23_config_reported_back",
    "C23_bit_size_not_validated_refuted"
   ],
   "note": ""
  },
  {
   "property": "C24",
   "status": "proved",
   "theorems": [
    "C24_config_roundtrip",
    "C24_server_config_roundtrip",
    "C24_config_json_injective"
   ],
   "note": ""
  },
  {
   "property": "C25",
   "status": "proved",
   "theorems": [
    "C25_dump_restores",
    "C25_restored_server_is_interchangeable",
    "C25_restored_server_finds_the_entries"
   ],
   "note": ""
  },
  {
   "property": "C26",
   "status": "proved",
   "theorems": [
    "C26_config_endpoint_independent_of_key",
    "C26_client_obtains_the_configuration"
   ],
   "note": ""
  },
  {
   "property": "C27",
   "status": "proved",
   "theorems": [
    "C27_query_over_http",
    "C27_request_json_roundtrip"
   ],
   "note": ""
  },
  {
   "property": "C28",
   "status": "proved",
   "theorems": [
    "C28_always_answers",
    "C28_statuses",
    "C28_status_200_iff_accepted",
    "C28_status_400_iff_unreadable",
    "C28_status_500_iff_refused",
    "C28_answer_to_a_request",
    "C28_not_json",
    "C28_evaluated_despite_type_error"
   ],
   "note": ""
  },
  {
   "property": "C29",
   "status": "proved",
   "theorems": [
    "C29_mutate_sound",
    "C29_negative_count_panics",
    "C29_mutate_total"
   ],
   "note": ""
  },
  {
   "property": "C30",
   "status": "proved",
   "theorems": [
    "C30_missing_only_on_collision",
    "C30_variant_dropped_refuted"
   ],
   "note": ""
  },
  {
   "property": "C31",
   "status": "proved",
   "theorems": [
    "C31_first_n_of_more",
    "C31_prefix"
   ],
   "note": ""
  },
  {
   "property": "C32",
   "status": "proved",
   "theorems": [
    "C32_shipped_rules",
    "C32_shipped_never_panics"
   ],
   "note": ""
  },
  {
   "property": "C33",
   "status": "proved",
   "theorems": [
    "C33_capitalisation",
    "C33_deletion",
    "C33_insertion",
    "C33_substitution",
    "C33_unknown_type_panics"
   ],
   "note": ""
  },
  {
   "property": "C34",
   "status": "proved",
   "theorems": [
    "C34_split_at_first_colon",
    "C34_no_colon",
    "C34_server_line",
    "C34_server_line_without_colon",
    "C34_client_skips_lines_without_colon"
   ],
   "note": ""
  },
  {
   "property": "C35",
   "status": "proved",
   "theorems": [
    "C35_input_is_text",
    "C35_lines_read",
    "C35_every_line_counted",
    "C35_long_line_ends_input_refuted"
   ],
   "note": ""
  },
  {
   "property": "C36",
   "status": "proved",
   "theorems": [
    "C36_password_not_shown"
   ],
   "note": ""
  },
  {
   "property": "C37",
   "status": "proved",
   "theorems": [
    "C37_request_hides_credential"
   ],
   "note": ""
  },
  {
   "property": "C38",
   "status": "proved",
   "theorems": [
    "C38_client_derives_entry_key",
    "C38_group_oprf_correct",
    "C38_library_laws_hold_for_groups"
   ],
   "note": ""
  },
  {
   "property": "C39",
   "status": "proved",
   "theorems": [
    "C39_malleable",
    "C39_pad_reuse"
   ],
   "note": ""
  },
  {
   "property": "C40",
   "status": "proved",
   "theorems": [
    "C40_bucket_hash_defined",
    "C40_bucket_preimage_injective",
    "C40_scrypt_never_fails"
   ],
   "note": ""
  },
  {
   "property": "C41",
   "status": "proved",
   "theorems": [
    "C41_query_during_inserts"
   ],
   "note": ""
  },
  {
   "property": "C42",
   "status": "proved",
   "theorems": [
    "C42_short_lines_never_panic",
    "C42_long_line_panics_refuted",
    "C42_substitution_grows_passwords"
   ],
   "note": ""
  },
  {
   "property": "C43",
   "status": "proved",
   "theorems": [
    "C43_every_call_can_finish",
    "C43_no_deadlock",
    "C43_bounded_work",
    "C43_all_calls_finish"
   ],
   "note": ""
  },
  {
   "property": "C44",
   "status": "proved",
   "theorems": [
    "C44_end_to_end",
    "C44_end_to_end_with_refused_lines"
   ],
   "note": ""
  },
  {
   "property": "C45",
   "status": "proved",
   "theorems": [
    "C45_line_is_a_report",
    "C45_utf8_is_verbatim",
    "C45_lines_tell_apart",
    "C45_invalid_names_collide_refuted"
   ],
   "note": ""
  },
  {
   "property": "C46",
   "status": "proved",
   "theorems": [
    "C46_server_dump_is_a_configuration",
    "C46_client_dump_is_a_configuration",
    "C46_client_fetches_the_configuration"
   ],
   "note": ""
  },
  {
   "property": "C47",
   "status": "proved",
   "theorems": [
    "C47_server_options",
    "C47_client_options",
    "C47_server_refuses",
    "C47_client_refuses",
    "C47_help",
    "C47_every_command_line",
    "C47_outcome_says_how_it_is_written",
    "C47_boolean_with_space_refuted"
   ],
   "note": ""
  },
  {
   "property": "C48",
   "status": "proved",
   "theorems": [
    "C48_hostile_server_cannot_crash_the_client",
    "C48_bit_size_crashes_queries_refuted"
   ],
   "note": ""
  },
  {
   "property": "C49",
   "status": "proved",
   "theorems": [
    "C49_status_zero_means_complete"
   ],
   "note": ""
  },
  {
   "property": "C50",
   "status": "proved",
   "theorems": [
    "C50_other_version_is_refused",
    "C50_mismatch_is_answered_not_in_breach",
    "C50_other_bit_size_never_finds_refuted"
   ],
   "note": ""
  },
  {
   "property": "C51",
   "status": "proved",
   "theorems": [
    "C51_going_on_reveals_a_guess_refuted",
    "C51_baited_bucket"
   ],
   "note": ""
  },
  {
   "property": "C52",
   "status": "proved",
   "theorems": [
    "C52_traffic_hides_the_credentials",
    "C52_complete_runs_post_once_per_credential",
    "C52_the_posts_are_all_that_is_sent"
   ],
   "note": ""
  },
  {
   "property": "C53",
   "status": "proved",
   "theorems": [
    "C53_reader_accepts_the_grammar",
    "C53_one_value",
    "C53_base64"
   ],
   "note": ""
  },
  {
   "property": "C54",
   "status": "proved",
   "theorems": [
    "C54_request_decoding",
    "C54_answered_bodies",
    "C54_refused_bodies",
    "C54_bad_bodies",
    "C54_last_bytes_count",
    "C54_null_revives_a_byte_refuted"
   ],
   "note": ""
  },
  {
   "property": "C55",
   "status": "proved",
   "theorems": [
    "C55_config_decoding",
    "C55_config_from_a_stream",
    "C55_server_config_decoding",
    "C55_rule_table_decoding",
    "C55_missing_members_are_zero",
    "C55_unmentioned_slow_hasher_is_none"
   ],
   "note": ""
  },
  {
   "property": "C56",
   "status": "proved",
   "theorems": [
    "C56_outcome_independent_of_store",
    "C56_history_stores",
    "C56_every_query_after_a_history",
    "C56_other_users_do_not_matter",
    "C56_repeated_inserts_change_nothing",
    "C56_order_of_one_user_matters_refuted",
    "C56_breach_files_in_another_order",
    "C56_breach_files_with_repeated_lines"
   ],
   "note": ""
  },
  {
   "property": "C57",
   "status": "proved",
   "theorems": [
    "C57_posted_requests",
    "C57_config_endpoint",
    "C57_server_config",
    "C57_base64"
   ],
   "note": ""
  },
  {
   "property": "C58",
   "status": "proved",
   "theorems": [
    "C58_paths_are_resolved",
    "C58_get",
    "C58_post",
    "C58_query_at_evaluate",
    "C58_query_elsewhere",
    "C58_query_at_config",
    "C58_other_hosts",
    "C58_target_with_a_path_refuted"
   ],
   "note": ""
  },
  {
   "property": "C59",
   "status": "proved",
   "theorems": [
    "C59_mutate",
    "C59_encrypt_entry",
    "C59_encrypt",
    "C59_decrypt_body",
    "C59_decrypt_header",
    "C59_hash",
    "C59_slow_hash",
    "C59_null_hash_refuted",
    "C59_request",
    "C59_finalize",
    "C59_marshal",
    "C59_unmarshal",
    "C59_unmarshal_keeps_refuted",
    "C59_handle_request"
   ],
   "note": ""
  },
  {
   "property": "C60",
   "status": "proved",
   "theorems": [
    "C60_insert",
    "C60_get_is_a_snapshot",
    "C60_ingestion",
    "C60_ingestion_exists"
   ],
   "note": ""
  },
  {
   "property": "C61",
   "status": "proved",
   "theorems": [
    "C61_lines_do_not_depend_on_the_reads",
    "C61_stalled_reader",
    "C61_server_loop",
    "C61_client_loop",
    "C61_no_reading_ahead",
    "C61_read_error_is_silent_refuted",
    "C61_positive_reads_do_not_stall"
   ],
   "note": ""
  },
  {
   "property": "C62",
   "status": "proved",
   "theorems": [
    "C62_config_over_a_config",
    "C62_syntax_error_changes_nothing",
    "C62_type_error_changes_the_config_refuted",
    "C62_response_over_a_response",
    "C62_errors_of_a_response",
    "C62_failed_response",
    "C62_server_config_over_a_config",
    "C62_failed_server_config",
    "C62_marshalled_by_value_refuted"
   ],
   "note": ""
  },
  {
   "property": "C63",
   "status": "proved",
   "theorems": [
    "C63_entries_stay_valid",
    "C63_fewer_bits_join_buckets",
    "C63_regrouped_store_answers_the_same",
    "C63_joining_neighbours_regroups",
    "C63_stale_entries_are_silent_refuted"
   ],
   "note": ""
  },
  {
   "property": "C64",
   "status": "proved",
   "theorems": [
    "C64_refines_the_simple_lock",
    "C64_store_is_atomic",
    "C64_no_call_is_lost",
    "C64_no_data_race",
    "C64_writers_exclude_all",
    "C64_no_deadlock",
    "C64_bounded_work",
    "C64_all_calls_finish",
    "C64_waiting_writer_is_next",
    "C64_waiting_writer_is_the_only_one"
   ],
   "note": ""
  },
  {
   "property": "C65",
   "status": "proved",
   "theorems": [
    "C65_working_output",
    "C65_server_working",
    "C65_runs_exist",
    "C65_server_runs_exist",
    "C65_output_does_not_matter",
    "C65_what_is_tried",
    "C65_lost_output_is_silent_refuted",
    "C65_client_dump",
    "C65_server_dump"
   ],
   "note": ""
  },
  {
   "property": "C66",
   "status": "proved",
   "theorems": [
    "C66_answers_line_by_line",
    "C66_every_point"
   ],
   "note": ""
  },
  {
   "property": "C67",
   "status": "proved",
   "theorems": [
    "C67_log",
    "C67_log_shows_only_which_lines_were_stored",
    "C67_at_every_point",
    "C67_last_failures_are_not_logged_refuted"
   ],
   "note": ""
  },
  {
   "property": "C68",
   "status": "proved",
   "theorems": [
    "C68_working",
    "C68_runs_exist",
    "C68_failing_writes",
    "C68_headers_do_not_depend_on_writes",
    "C68_content_type",
    "C68_other_pages",
    "C68_log",
    "C68_body",
    "C68_error_text_after_200_refuted"
   ],
   "note": ""
  },
  {
   "property": "C69",
   "status": "proved",
   "theorems": [
    "C69_no_collision_in_one_block",
    "C69_number_of_variants",
    "C69_exactly_as_many_as_asked_for",
    "C69_size_of_an_insert",
    "C69_size_of_a_bucket"
   ],
   "note": ""
  },
  {
   "property": "C70",
   "status": "proved",
   "theorems": [
    "C70_every_line_is_stored",
    "C70_any_files",
    "C70_quick_start"
   ],
   "note": ""
  },
  {
   "property": "C71",
   "status": "proved",
   "theorems": [
    "C71_no_races",
    "C71_outcome",
    "C71_calls_return",
    "C71_arguments_must_not_change"
   ],
   "note": ""
  },
  {
   "property": "C72",
   "status": "proved",
   "theorems": [
    "C72_hkdf_is_an_instance",
    "C72_entries_show_only_lengths",
    "C72_store_shows_only_lengths",
    "C72_query_shows_only_own_entry",
    "C72_breach_shows_only_buckets",
    "C72_breach_is_an_instance",
    "C72_entries_with_one_key_refuted",
    "C72_lines_of_one_user_show"
   ],
   "note": ""
  },
  {
   "property": "C73",
   "status": "proved",
   "theorems": [
    "C73_requests_have_one_size",
    "C73_size_of_a_response",
    "C73_response_shows_number_of_lines",
    "C73_blinded_elements_have_one_size"
   ],
   "note": ""
  },
  {
   "property": "C74",
   "status": "proved",
   "theorems": [
    "C74_new_client",
    "C74_new_server",
    "C74_handle_request",
    "C74_finalize",
    "C74_response_bytes",
    "C74_encrypt_bucket_entry",
    "C74_query_status",
    "C74_query_passes_errors"
   ],
   "note": ""
  },
  {
   "property": "C75",
   "status": "proved",
   "theorems": [
    "C75_finalize",
    "C75_handle_request",
    "C75_marshal",
    "C75_unmarshal",
    "C75_request",
    "C75_encrypt_entry",
    "C75_mutate",
    "C75_alone",
    "C75_together",
    "C75_built_in_rules"
   ],
   "note": ""
  },
  {
   "property": "C76",
   "status": "proved",
   "theorems": [
    "C76_key_check",
    "C76_encrypt_entry",
    "C76_request",
    "C76_handle_request",
    "C76_marshal",
    "C76_unmarshal",
    "C76_finalize",
    "C76_finalize_shows_match",
    "C76_mutate_shows_letters_refuted"
   ],
   "note": ""
  },
  {
   "property": "C77",
   "status": "proved",
   "theorems": [
    "C77_buckets_are_distinct",
    "C77_number_of_buckets",
    "C77_store_is_bounded",
    "C77_store_is_exact",
    "C77_breach_file"
   ],
   "note": ""
  },
  {
   "property": "C78",
   "status": "proved",
   "theorems": [
    "C78_number_of_checks",
    "C78_any_bucket",
    "C78_never_stored",
    "C78_hkdf_checks"
   ],
   "note": ""
  },
  {
   "property": "C79",
   "status": "proved",
   "theorems": [
    "C79_store",
    "C79_server",
    "C79_client"
   ],
   "note": ""
  },
  {
   "property": "C80",
   "status": "proved",
   "theorems": [
    "C80_no_warning",
    "C80_warning",
    "C80_silence"
   ],
   "note": ""
  },
  {
   "property": "C81",
   "status": "proved",
   "theorems": [
    "C81_secret_of_another_response",
    "C81_mix_up_is_silent_refuted"
   ],
   "note": ""
  },
  {
   "property": "C82",
   "status": "proved",
   "theorems": [
    "C82_parts_make_the_whole",
    "C82_whole_can_be_split",
    "C82_joined_buckets_answer"
   ],
   "note": ""
  },
  {
   "property": "C83",
   "status": "proved",
   "theorems": [
    "C83_same_answers",
    "C83_found_before_the_damage",
    "C83_honest_server",
    "C83_crash_refuted",
    "C83_crash_for_everyone_refuted"
   ],
   "note": ""
  },
  {
   "property": "C84",
   "status": "proved",
   "theorems": [
    "C84_query",
    "C84_calls",
    "C84_refused_leak_refuted",
    "C84_client_program",
    "C84_client_success",
    "C84_server_program"
   ],
   "note": ""
  },
  {
   "property": "C85",
   "status": "proved",
   "theorems": [
    "C85_insert_makes_these_calls",
    "C85_every_schedule_is_some_order",
    "C85_bucket_lengths",
    "C85_answer_of_one_goroutine",
    "C85_every_order_happens",
    "C85_any_goroutine_may_win",
    "C85_dealt_by_username",
    "C85_one_user_in_two_goroutines_refuted"
   ],
   "note": ""
  },
  {
   "property": "C86",
   "status": "proved",
   "theorems": [
    "C86_one_instant",
    "C86_returned_inserts_are_seen",
    "C86_reports_only_what_was_inserted",
    "C86_buckets_only_grow",
    "C86_found_answers_stay"
   ],
   "note": ""
  },
  {
   "property": "C87",
   "status": "proved",
   "theorems": [
    "C87_one_bucket",
    "C87_as_if_alone",
    "C87_server_program",
    "C87_same_bucket_for_all",
    "C87_client_request"
   ],
   "note": ""
  },
  {
   "property": "C88",
   "status": "proved",
   "theorems": [
    "C88_cut_json",
    "C88_cut_client_configuration",
    "C88_cut_server_configuration",
    "C88_cut_page",
    "C88_cut_request",
    "C88_cut_response",
    "C88_cut_answer",
    "C88_where_the_cut_falls",
    "C88_cut_input"
   ],
   "note": ""
  },
  {
   "property": "C89",
   "status": "proved",
   "theorems": [
    "C89_whole_body",
    "C89_not_before_the_end",
    "C89_query",
    "C89_refusal_is_not_read",
    "C89_answers_are_from_whole_bodies",
    "C89_broken_connection",
    "C89_handler",
    "C89_handler_waits_for_the_end",
    "C89_no_timeout_refuted",
    "C89_no_size_limit_refuted",
    "C89_client_lines",
    "C89_client_stays"
   ],
   "note": ""
  },
  {
   "property": "C90",
   "status": "proved",
   "theorems": [
    "C90_text",
    "C90_output_line",
    "C90_request",
    "C90_configurations",
    "C90_config_page"
   ],
   "note": ""
  },
  {
   "property": "C91",
   "status": "proved",
   "theorems": [
    "C91_waits",
    "C91_returns",
    "C91_reads_no_further",
    "C91_object_is_enough",
    "C91_configuration_arrives",
    "C91_whole_body",
    "C91_client",
    "C91_hopeless",
    "C91_broken_connection",
    "C91_no_timeout_refuted",
    "C91_endless_string_refuted"
   ],
   "note": ""
  },
  {
   "property": "C92",
   "status": "proved",
   "theorems": [
    "C92_arrived",
    "C92_end_to_end",
    "C92_ended",
    "C92_only_grows",
    "C92_status_zero",
    "C92_server_keeps_client_refuted"
   ],
   "note": ""
  },
  {
   "property": "C93",
   "status": "proved",
   "theorems": [
    "C93_line",
    "C93_output",
    "C93_output_so_far",
    "C93_no_forged_lines",
    "C93_terminal_controls_refuted"
   ],
   "note": ""
  },
  {
   "property": "C94",
   "status": "proved",
   "theorems": [
    "C94_every_reply",
    "C94_never_blocked",
    "C94_bounded",
    "C94_alone",
    "C94_fair",
    "C94_accepts",
    "C94_endless_body",
    "C94_store_stays",
    "C94_query",
    "C94_server_program"
   ],
   "note": ""
  },
  {
   "property": "C95",
   "status": "proved",
   "theorems": [
    "C95_answers",
    "C95_as_if_alone",
    "C95_everyone_can_be_served",
    "C95_end_to_end"
   ],
   "note": ""
  }
 ]
}