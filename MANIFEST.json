{
 "claims": [
  {
   "property": "C01",
   "status": "proved",
   "theorems": [
    "c01_c10_string_level_agrees",
    "c01_prefix_present_exact",
    "c01_c13_null_arguments_rejected"
   ],
   "note": "exact iff at pointer level, including bounds"
  },
  {
   "property": "C02",
   "status": "proved",
   "theorems": [
    "c01_c10_string_level_agrees",
    "c02_starts_with_exact",
    "c01_c13_null_arguments_rejected"
   ],
   "note": "exact iff at pointer level, including bounds"
  },
  {
   "property": "C03",
   "status": "proved",
   "theorems": [
    "c01_c10_string_level_agrees",
    "c03_remove_prefix_exact",
    "c01_c13_null_arguments_rejected"
   ],
   "note": "exact"
  },
  {
   "property": "C04",
   "status": "proved",
   "theorems": [
    "c01_c10_string_level_agrees",
    "c04_remove_all_spaces_exact",
    "c04_remove_all_quotes_exact",
    "c04_overlay_is_the_string",
    "c04_remove_leading_spaces_exact"
   ],
   "note": "exact with frame condition"
  },
  {
   "property": "C05",
   "status": "partial",
   "theorems": [
    "c05_trailing_spaces_refuted",
    "c05_trailing_spaces_partial"
   ],
   "note": "violated by the code: strings of length 1-2 keep trailing spaces and all-space strings keep one; exact for all others"
  },
  {
   "property": "C06",
   "status": "partial",
   "theorems": [
    "c06_outermost_quotes_refuted",
    "c06_outermost_quotes_partial"
   ],
   "note": "violated by the code only for the quoted empty string (left unchanged); exact for all others"
  },
  {
   "property": "C07",
   "status": "proved",
   "theorems": [
    "c07_tokens_are_the_fields"
   ],
   "note": "for every delimiter byte, field list and placement in memory"
  },
  {
   "property": "C08",
   "status": "partial",
   "theorems": [
    "c08_tokenizer_safety_refuted",
    "c08_tokenizer_safety_partial"
   ],
   "note": "violated by the code for delimiter strings of 2+ characters (strlen(NULL)); safe and exact for one-character delimiters"
  },
  {
   "property": "C09",
   "status": "proved",
   "theorems": [
    "c09_hex_decoding_exact",
    "c09_hex_text_decodes_to_its_bytes"
   ],
   "note": "exact incl. bounds and invalid digits"
  },
  {
   "property": "C10",
   "status": "proved",
   "theorems": [
    "c10_digit_check_exact"
   ],
   "note": "exact"
  },
  {
   "property": "C11",
   "status": "partial",
   "theorems": [
    "c11_keyword_table_refuted",
    "c11_keyword_table_diverges",
    "c11_keyword_table_partial"
   ],
   "note": "violated by the code: uint8_t counter never reaches a bound >= 256 (endless loop); exact for tables up to 255 entries"
  },
  {
   "property": "C12",
   "status": "proved",
   "theorems": [
    "c12_strdup_exact"
   ],
   "note": "both allocator outcomes"
  },
  {
   "property": "C13",
   "status": "partial",
   "theorems": [
    "c13_integer_parsing_refuted",
    "c13_integer_parsing_partial",
    "c13_no_numeral_is_an_error"
   ],
   "note": "violated by the code: numerals outside int32 are reported as success with another value; exact inside int32, error without numeral"
  },
  {
   "property": "C14",
   "status": "partial",
   "theorems": [
    "c14_lines_are_classified_partial",
    "c14_long_line_refuted"
   ],
   "note": "rule proved for every line, table, command and usable prefix; violated by the code for prefixed lines longer than 256 bytes"
  },
  {
   "property": "C15",
   "status": "proved",
   "theorems": [
    "c15_result_codes",
    "c15_without_tables"
   ],
   "note": "all lines, token tables (present, at most 255 entries: C11), responses and command types"
  },
  {
   "property": "C16",
   "status": "partial",
   "theorems": [
    "c16_lines_are_dispatched_partial",
    "c16_lines_are_dispatched_over_time_partial",
    "c16_response_has_its_lines",
    "c16_capped_lines_are_lines",
    "c16_runs_are_executions"
   ],
   "note": "all streams, chunkings, reactive environments; with commands set up and timing out between any two lines; over-long lines included; violated by the code after a refused line (C23) and when a read finds the buffer full while an answer is collected (C20)"
  },
  {
   "property": "C17",
   "status": "partial",
   "theorems": [
    "c17_unprefixed_line_delivered_refuted",
    "c17_prefixed_lines_carry_the_prefix_partial"
   ],
   "note": "violated by the code: unprefixed lines are delivered too"
  },
  {
   "property": "C18",
   "status": "partial",
   "theorems": [
    "c18_receive_path_is_safe_partial",
    "c18_late_data_refuted"
   ],
   "note": "memory safety and termination for every chunk sequence and contract-respecting callbacks; violated by the code (NULL response) if a payload is announced with no data command in flight"
  },
  {
   "property": "C19",
   "status": "partial",
   "theorems": [
    "c19_chunking_is_irrelevant_partial",
    "c19_chunking_matters_refuted",
    "c16_lines_are_dispatched_partial",
    "c19_text_chunking_is_irrelevant_partial"
   ],
   "note": "chunk independence proved up to the first refused line; violated by the code after a refused line and when a read finds the buffer full while an answer is collected (c82_full_buffer_refuted)"
  },
  {
   "property": "C20",
   "status": "partial",
   "theorems": [
    "c20_saved_lines_overwritten_refuted",
    "c20_callback_error_wipes_lines_refuted",
    "c20_delivered_bytes_are_stream_bytes_partial",
    "c20_changing_requests_partial"
   ],
   "note": "violated by the code on buffer exhaustion and on callback errors; proved otherwise, also while the requests in flight change at any moment (c20_changing_requests_partial)"
  },
  {
   "property": "C21",
   "status": "partial",
   "theorems": [
    "c21_reader_stalls_refuted",
    "c21_progress_partial",
    "c93_answer_left_behind_refuted",
    "c93_every_byte_is_read_while_the_modem_talks"
   ],
   "note": "violated by the code when input exactly fills the buffer; proved whenever space is left"
  },
  {
   "property": "C22",
   "status": "partial",
   "theorems": [
    "c22_payload_is_exact_partial",
    "c22_inline_payload_refuted",
    "c69_only_the_payload_is_taken_partial"
   ],
   "note": "all payloads and fragmentations for payloads behind the announcing line; violated by the code for payloads starting inside it"
  },
  {
   "property": "C23",
   "status": "partial",
   "theorems": [
    "c23_refused_line_loses_the_next_refuted",
    "c23_torn_line_decides_a_request_refuted",
    "c23_later_chunks_survive_partial",
    "c23_all_text_accounted_for_partial",
    "c20_changing_requests_partial"
   ],
   "note": "violated by the code: the rest of the chunk is lost; proved that nothing else is; behind it the reader starts in the middle of a line, whose tail can even decide a request (c23_torn_line_decides_a_request_refuted)"
  },
  {
   "property": "C24",
   "status": "proved",
   "theorems": [
    "c24_command_is_sent_exactly",
    "c24_null_arguments_send_nothing"
   ],
   "note": "for every command, type, prefix and comm interface; all buffer accesses bounds checked"
  },
  {
   "property": "C25",
   "status": "partial",
   "theorems": [
    "c25_prefix_is_stored_partial",
    "c25_long_prefix_refuted"
   ],
   "note": "violated by the code: every prefix of 32 bytes or more is stored without terminator and the next comparison reads past the array; exact up to 31 bytes"
  },
  {
   "property": "C26",
   "status": "partial",
   "theorems": [
    "c26_short_command_send_refuted",
    "c26_short_data_send_is_reported_partial",
    "c26_null_data_send"
   ],
   "note": "violated by the code: the sent length of a command is ignored; the data phase of data-send requests is checked"
  },
  {
   "property": "C27",
   "status": "proved",
   "theorems": [
    "c27_one_request_in_flight",
    "c27_transmissions_are_exclusive",
    "request_send_agrees",
    "request_reader_agrees"
   ],
   "note": "every number of threads, every schedule, every modem; PktRespMutex regions atomic, sequentially consistent memory"
  },
  {
   "property": "C28",
   "status": "partial",
   "theorems": [
    "c28_status_is_own_partial",
    "c28_stale_status_refuted",
    "c28_late_answer_refuted",
    "c28_bytes_before_the_call_refuted"
   ],
   "note": "violated by the code when a time-out races with the answer or the answer is late (queue not drained); proved for runs whose time-outs leave no residue"
  },
  {
   "property": "C29",
   "status": "partial",
   "theorems": [
    "c29_lines_are_own_partial",
    "c29_lines_of_timed_out_call_refuted",
    "c29_bytes_before_the_call_refuted"
   ],
   "note": "violated by the code: lines collected before a time-out are delivered with the next answer; proved for runs whose time-outs leave no residue"
  },
  {
   "property": "C30",
   "status": "partial",
   "theorems": [
    "c30_idle_means_no_command_partial",
    "c30_return_means_no_command_partial",
    "c30_send_error_leaves_command_pending_refuted"
   ],
   "note": "violated by the code after SEND_ERROR of the data phase; proved for all other outcomes"
  },
  {
   "property": "C31",
   "status": "partial",
   "theorems": [
    "c31_callback_within_request_partial",
    "c31_callback_outlives_request_refuted",
    "c31_null_callback_called_refuted"
   ],
   "note": "violated by the code when the time-out races with the reader; proved for runs whose time-outs leave no residue"
  },
  {
   "property": "C32",
   "status": "proved",
   "theorems": [
    "c32_hooks_only_during_their_request",
    "c32_nothing_left_behind"
   ],
   "note": "every schedule and outcome"
  },
  {
   "property": "C33",
   "status": "partial",
   "theorems": [
    "c33_table_check_exact",
    "c33_unsorted_table_accepted_refuted"
   ],
   "note": "the check is exact for every table; violated by the code: initialisation ignores its result"
  },
  {
   "property": "C34",
   "status": "proved",
   "theorems": [
    "c34_lookup_exact"
   ],
   "note": "every strictly sorted table, every token, logarithmic bound"
  },
  {
   "property": "C35",
   "status": "partial",
   "theorems": [
    "c35_urc_dispatch_partial",
    "c35_urc_without_prefix_dispatch",
    "c35_urc_dispatch_refuted",
    "c35_urc_dropped"
   ],
   "note": "violated by the code for an empty name ('+:text'), over-long lines and failed allocation; exact for all others"
  },
  {
   "property": "C36",
   "status": "partial",
   "theorems": [
    "c36_report_is_recorded_partial",
    "c36_urc_is_recorded_partial",
    "c36_initial",
    "c36_bad_field_is_refused",
    "c36_empty_optional_field_refuted"
   ],
   "note": "every well-formed line without empty fields is recorded exactly; violated by the code for lines with an empty optional field (fields after it are dropped and an error reported)"
  },
  {
   "property": "C37",
   "status": "proved",
   "theorems": [
    "c37_event_iff_status_changed"
   ],
   "note": "all payloads, states, registration types"
  },
  {
   "property": "C38",
   "status": "proved",
   "theorems": [
    "c38_domains_are_independent"
   ],
   "note": "all payloads, states, registration types"
  },
  {
   "property": "C39",
   "status": "partial",
   "theorems": [
    "c39_refused_line_changes_state_refuted",
    "c39_refused_status_changes_nothing_partial"
   ],
   "note": "violated by the code: fields before the malformed one are already recorded and the event delivered"
  },
  {
   "property": "C40",
   "status": "partial",
   "theorems": [
    "c40_tracking_area_code_refuted",
    "c40_deregistration_clears_location_partial"
   ],
   "note": "violated by the code for the tracking area code, which keeps its old value; all other location fields proved"
  },
  {
   "property": "C41",
   "status": "proved",
   "theorems": [
    "c41_live_sockets_have_distinct_slots",
    "c41_index_check_exact",
    "c41_create_rejects",
    "c41_create_succeeds_iff",
    "c41_create_failure_changes_nothing",
    "c41_new_socket_is_fresh",
    "c41_removed_slot_is_reusable"
   ],
   "note": "invariant over every history of create/remove/setsockopt/register/state-change"
  },
  {
   "property": "C42",
   "status": "partial",
   "theorems": [
    "c42_remove_affects_only_that_socket",
    "c42_unknown_handle_is_rejected",
    "c42_double_remove_refuted"
   ],
   "note": "live and foreign handles as claimed; violated by the code: a second removal of the same handle dereferences it before validation (undefined behaviour)"
  },
  {
   "property": "C43",
   "status": "partial",
   "theorems": [
    "c43_concurrent_create_refuted",
    "c43_serialised_create_partial"
   ],
   "note": "violated by the code: check-then-act without lock; holds for non-overlapping creations"
  },
  {
   "property": "C44",
   "status": "proved",
   "theorems": [
    "c44_legal_option_is_applied_exactly",
    "c44_illegal_option_changes_nothing"
   ],
   "note": "all sockets, options, levels, lengths"
  },
  {
   "property": "C45",
   "status": "partial",
   "theorems": [
    "c45_pdn_context_id_refuted",
    "c45_pdn_context_id_in_range_partial"
   ],
   "note": "violated by the code through the PDN context id socket option"
  },
  {
   "property": "C46",
   "status": "proved",
   "theorems": [
    "c46_success_is_open",
    "c46_failure_releases_everything",
    "c46_never_twice",
    "c46_succeeds_when_nothing_fails",
    "c46_second_init_changes_nothing",
    "c46_c47_calls_return"
   ],
   "note": "every combination of outcomes, every schedule of application and reader thread, every history"
  },
  {
   "property": "C47",
   "status": "partial",
   "theorems": [
    "c47_cleanup_releases_everything",
    "c47_accepted_only_with_resources",
    "c47_closed_library_refuses",
    "c47_sockets_served_exactly",
    "c47_restart_like_first_partial",
    "c47_static_restart_refuted",
    "c46_c47_calls_return"
   ],
   "note": "everything proved for heap-allocated contexts; violated by the code for statically allocated contexts (late reader shuts the new instance down)"
  },
  {
   "property": "C48",
   "status": "proved",
   "theorems": [
    "c48_api_gate_exact"
   ],
   "note": "iff over all flag combinations"
  },
  {
   "property": "C49",
   "status": "partial",
   "theorems": [
    "c49_handle_partial",
    "c49_dangling_handle_refuted"
   ],
   "note": "violated by the code when a module function fails; otherwise exact"
  },
  {
   "property": "C50",
   "status": "partial",
   "theorems": [
    "c50_only_after_announcing_partial",
    "c50_no_use_after_release_partial",
    "c50_use_after_release_refuted"
   ],
   "note": "violated by the code: clean-up waits for an event bit, not for the thread; proved for schedules that let the thread end first"
  },
  {
   "property": "C51",
   "status": "proved",
   "theorems": [
    "c51_csq_rssi_exact",
    "c51_csq_ber_exact"
   ],
   "note": "exact tables, all integers"
  },
  {
   "property": "C52",
   "status": "proved",
   "theorems": [
    "c52_bars_total",
    "c52_bars_monotone",
    "c52_bars_support",
    "c52_bars_thresholds"
   ],
   "note": "all RATs and levels"
  },
  {
   "property": "C53",
   "status": "partial",
   "theorems": [
    "c53_invalid_signal_bars_refuted",
    "c53_unsupported_rat_partial"
   ],
   "note": "violated by the code: the invalid value is reported as 1 bar for every supported RAT"
  },
  {
   "property": "C54",
   "status": "partial",
   "theorems": [
    "c54_t3412_partial",
    "c54_t3324_partial",
    "c54_not_binary_is_refused",
    "c54_320_hours_refuted",
    "c54_other_units_refuted",
    "c54_wide_field_refuted"
   ],
   "note": "proved for all units the decoder knows; violated by the code: standard units 320 h (T3412) and 'other values' (T3324) are refused, wide fields are masked"
  },
  {
   "property": "C55",
   "status": "partial",
   "theorems": [
    "c55_command_partial",
    "c55_wide_value_refuted"
   ],
   "note": "exact for all settings with timer values below 256; violated by the code above: truncated to 8 bits"
  },
  {
   "property": "C56",
   "status": "partial",
   "theorems": [
    "c56_only_deactivated_survives_refuted",
    "c56_round_trip_refuted",
    "c56_deactivated_partial"
   ],
   "note": "violated by the code for every timer that is not deactivated (seconds are written back as if they were codes); proved for deactivated timers"
  },
  {
   "property": "C57",
   "status": "partial",
   "theorems": [
    "c57_settings_partial",
    "c57_bad_last_field_is_reported",
    "c57_bad_field_unreported_refuted",
    "c57_empty_trailing_fields_refuted"
   ],
   "note": "violated by the code: only the last field's error is reported, and empty trailing fields are refused; exact for all well-formed responses"
  },
  {
   "property": "C58",
   "status": "partial",
   "theorems": [
    "c58_list_exact_partial",
    "c58_four_lines_safe_partial",
    "c58_fifth_line_overruns_refuted"
   ],
   "note": "violated by the code: five or more lines overrun the list; exact and safe for up to four"
  },
  {
   "property": "C59",
   "status": "partial",
   "theorems": [
    "c59_ready_partial",
    "c59_never_locked_refuted",
    "c59_sim_pin_refuted"
   ],
   "note": "violated by the code: white-space removal precedes the comparison, no locked state is ever reported; READY exact"
  },
  {
   "property": "C60",
   "status": "partial",
   "theorems": [
    "c60_hplmn_partial",
    "c60_read_error_is_reported",
    "c60_no_plmn_is_reported",
    "c60_lower_case_refuted"
   ],
   "note": "every MCC/MNC in upper-case coding; violated by the code for a lower-case filler nibble"
  },
  {
   "property": "C61",
   "status": "partial",
   "theorems": [
    "c61_sim_complete",
    "c61_never_overruns",
    "c61_modem_partial",
    "c61_truncated_refuted"
   ],
   "note": "IMSI and ICCID complete or error; violated by the code for modem strings, which are truncated silently; never overrun"
  },
  {
   "property": "C62",
   "status": "partial",
   "theorems": [
    "c62_address_partial",
    "c62_request",
    "c62_bad_arguments",
    "c62_never_overruns",
    "c62_no_terminator_refuted",
    "c62_buffer_64k_refuted",
    "c62_quotes_refuted"
   ],
   "note": "violated by the code for exact-length buffers, 65536-byte buffers and quoted addresses; exact otherwise, never overrun"
  },
  {
   "property": "C63",
   "status": "partial",
   "theorems": [
    "c63_time_partial",
    "c63_out_of_range_is_refused",
    "c63_malformed_accepted_refuted"
   ],
   "note": "exact for every well-formed response; violated by the code: malformed responses accepted"
  },
  {
   "property": "C64",
   "status": "partial",
   "theorems": [
    "c64_operator_partial",
    "c64_out_of_range_is_refused",
    "c64_never_overruns",
    "c64_no_operator_refuted",
    "c64_text_operator_refuted"
   ],
   "note": "exact; violated by the code: a missing operator counts as success (the access technology is parsed but not part of the caller's structure)"
  },
  {
   "property": "C65",
   "status": "partial",
   "theorems": [
    "c65_status_partial",
    "c65_no_registration_partial",
    "c65_always_success_refuted",
    "c65_dead_modem_refuted",
    "c65_name_unterminated_refuted"
   ],
   "note": "violated by the code: success is returned whatever the modem does; exact when all requests are answered"
  },
  {
   "property": "C66",
   "status": "proved",
   "theorems": [
    "c66_command",
    "c66_rejects"
   ],
   "note": "every id, type, APN up to 64 characters; every other argument"
  },
  {
   "property": "C67",
   "status": "proved",
   "theorems": [
    "c67_error_translation"
   ],
   "note": "all status values"
  },
  {
   "property": "C68",
   "status": "partial",
   "theorems": [
    "c68_requests_return_partial",
    "c68_requests_return_in_tidy_runs_partial",
    "c68_progress_is_always_possible",
    "c31_null_callback_called_refuted"
   ],
   "note": "proved for all fair infinite executions that never call through NULL, and for all fair tidy runs (callers do not give up while the reader is between testing and calling the callback) without that assumption; violated by the code where a time-out races with the reader (C31): after the call through NULL nothing can be said"
  },
  {
   "property": "C69",
   "status": "partial",
   "theorems": [
    "c69_answer_swallowed_refuted",
    "c69_only_the_payload_is_taken_partial"
   ],
   "note": "violated by the code: answers within the announced length are swallowed; proved that exactly the announced bytes are taken, whatever requests come and go, and that parsing resumes at the very next byte"
  },
  {
   "property": "C70",
   "status": "partial",
   "theorems": [
    "c70_query_line_interpretation",
    "c70_spaced_urc_misread_refuted"
   ],
   "note": "exact rule proved; violated by the code for URCs with white space before the quoted area code"
  },
  {
   "property": "C71",
   "status": "proved",
   "theorems": [
    "c71_closed_library_sends_nothing",
    "c71_null_output"
   ],
   "note": "all thirteen functions with the common gate; Cellular_SetPdnConfig in c66_rejects"
  },
  {
   "property": "C72",
   "status": "proved",
   "theorems": [
    "c72_radio",
    "c72_set_edrx"
   ],
   "note": "every settings structure with a value of four bits and 8-bit mode and RAT"
  },
  {
   "property": "C73",
   "status": "proved",
   "theorems": [
    "c73_honest"
   ],
   "note": "all functions except Cellular_GetServiceStatus (C65)"
  },
  {
   "property": "C74",
   "status": "partial",
   "theorems": [
    "c74_only_current",
    "c74_registered_as_passed",
    "c74_exact_partial",
    "c74_table",
    "c74_input_pair",
    "c74_mismatched_context_refuted",
    "c74_null_call_refuted"
   ],
   "note": "proved for events during which no registration of that kind is half done; violated by the code otherwise: invocation does not take the lock registration takes, so a function can be called with another registration's context, or through NULL"
  },
  {
   "property": "C75",
   "status": "proved",
   "theorems": [
    "c75_socket_callback_exact",
    "c75_socket_callback_refused"
   ],
   "note": "every socket and table state"
  },
  {
   "property": "C76",
   "status": "proved",
   "theorems": [
    "c76_undefined_line"
   ],
   "note": "every line that is neither response nor URC, every callback"
  },
  {
   "property": "C77",
   "status": "proved",
   "theorems": [
    "c77_success_means_information"
   ],
   "note": "all eight query functions; Cellular_GetServiceStatus is C65"
  },
  {
   "property": "C78",
   "status": "partial",
   "theorems": [
    "c78_no_deadlock_partial",
    "c78_calls_return_partial",
    "c78_registration_callback_refuted",
    "c78_input_callback_refuted",
    "c78_busy_modem_refuted",
    "c78_reader_stops_when_the_modem_is_silent"
   ],
   "note": "proved for any number of threads, all calls and schedules when callbacks keep to SpecLocks.callbacks_ok (input-buffer callback makes no library call, registration callback none that reads the registration data) and the modem pauses; violated by the code otherwise: such callbacks block the reader on a mutex it holds, and clean-up waits for ever while the modem keeps sending"
  },
  {
   "property": "C79",
   "status": "proved",
   "theorems": [
    "c79_queue_used_while_it_exists",
    "c79_queue_lifetime"
   ],
   "note": "any number of threads, any callbacks, all schedules"
  },
  {
   "property": "C80",
   "status": "partial",
   "theorems": [
    "c80_send_on_open_interface_partial",
    "c80_closed_after_cleanup",
    "c80_send_after_close_refuted"
   ],
   "note": "proved except while clean-up is in progress; violated by the code then: the handle is checked before, not when, it is used, and clean-up closes the interface without waiting for requests"
  },
  {
   "property": "C81",
   "status": "proved",
   "theorems": [
    "c81_busy_reader",
    "c81_nothing_left_behind"
   ],
   "note": "every run up to the callback, every segment without reader steps; the condition on the queue holds in every run whose time-outs left nothing behind"
  },
  {
   "property": "C82",
   "status": "partial",
   "theorems": [
    "c82_result_from_lines_partial",
    "c82_result_with_time_outs_partial",
    "c82_fragmentation_partial",
    "c82_full_buffer_refuted"
   ],
   "note": "every API function, modem, byte stream and URC placement; requests that time out and over-long lines included; violated by the code: a read that finds the buffer full while an answer is collected overwrites collected lines or leaves bytes unread, so the fragmentation is visible (C20, C21); lines left by a request that timed out go to the next answer (C29)"
  },
  {
   "property": "C83",
   "status": "partial",
   "theorems": [
    "c83_raw_sends_the_command",
    "c83_raw_outcome_partial",
    "c83_raw_outcome_with_time_outs_partial",
    "c83_full_buffer_refuted"
   ],
   "note": "the sending part in full; the outcome from any byte stream whose lines answer the command, time-outs included; violated by the code when a read finds the buffer full: the callback then gets other lines (C20, C21)"
  },
  {
   "property": "C84",
   "status": "partial",
   "theorems": [
    "c84_current_rat_partial",
    "c84_technology_behind_empty_fields_refuted",
    "c84_number_out_of_range_refuted",
    "c84_report_overtaken_by_older_answer_refuted"
   ],
   "note": "every history of registration URCs and query answers, complete or malformed; violated by the code: a technology behind empty optional fields is not recorded (C36), and with 64-bit long a number outside int32_t is taken modulo 2^32 (C13); and an answer completed by a later OK is recorded after, and overwrites, a newer URC of another domain"
  },
  {
   "property": "C85",
   "status": "proved",
   "theorems": [
    "c85_calls_return_what_the_modem_said",
    "c85_response_is_complete",
    "c85_at_most_once",
    "c85_nothing_is_unexpected",
    "c85_complete_answer_ends_the_wait"
   ],
   "note": "all runs of Request.v with a conforming modem and tidy time-outs (SpecAnswers.conforming_runs, SpecRequest.tidy_timeouts)"
  },
  {
   "property": "C86",
   "status": "proved",
   "theorems": [
    "c86_no_response_between_requests",
    "c86_no_response_before_the_first_request"
   ],
   "note": "every state in which a response is complete, every modem and schedule"
  },
  {
   "property": "C87",
   "status": "partial",
   "theorems": [
    "c87_frames_are_removed_partial",
    "c87_need_more_keeps_everything",
    "c87_error_discards_partial",
    "c87_error_spoils_the_response_refuted",
    "c87_line_behind_the_frame",
    "c87_declining_callback_is_invisible",
    "c87_frame_before_line_end_refuted",
    "c87_empty_line_delivered_refuted",
    "c87_second_frame_is_a_line_refuted"
   ],
   "note": "proved for frames that are separated from other text as SpecFrames.separated says; the claim without that condition is false of the code and refuted: a frame followed by a line end in the same read leaves an empty line that is delivered or refused, and of two frames in one read the second is read as a line; and after a callback error the lines already collected stay in the response as references into the discarded buffer, so the response delivered later repeats other text"
  },
  {
   "property": "C88",
   "status": "partial",
   "theorems": [
    "c88_bytes_left_by_callback_are_read",
    "c88_need_more_keeps_everything",
    "c88_error_discards_partial",
    "c88_error_spoils_the_response_refuted",
    "c88_declining_callback_is_invisible"
   ],
   "note": "every callback, buffer state and continuation; violated by the code: a callback error discards the buffered bytes but not the response in progress, whose lines are references into the discarded buffer and are delivered with other text"
  },
  {
   "property": "C89",
   "status": "proved",
   "theorems": [
    "c89_receive_memory"
   ],
   "note": "pointer-level heap model refining the list-level reader; every chunking, allocator (as long as memory suffices: C90), interference; callbacks within their contracts and payloads announced as C18 requires"
  },
  {
   "property": "C90",
   "status": "partial",
   "theorems": [
    "c90_out_of_memory_partial",
    "c90_no_assertions_refuted"
   ],
   "note": "proved when CELLULAR_CONFIG_ASSERT stops the program; violated by the code when assertions are compiled out (store through NULL)"
  },
  {
   "property": "C91",
   "status": "partial",
   "theorems": [
    "c91_single_line_partial",
    "c91_unbounded_refuted"
   ],
   "note": "violated by the code: a full read buffer is refilled and lines go on being collected without limit; at most two blocks for commands with single-line answers"
  },
  {
   "property": "C92",
   "status": "partial",
   "theorems": [
    "c92_parsers_stay_in_the_text",
    "c92_outcome_depends_on_the_text_only",
    "c92_registration_urc_stays_in_the_text",
    "c92_registration_urc_without_text",
    "c92_edrx_stays_in_the_text_partial",
    "c92_fifth_edrx_line_overruns_refuted"
   ],
   "note": "pointer-level parsers refine the string-level ones for every placement of the lines; violated by the code only for five or more eDRX lines, which overrun the caller's list"
  },
  {
   "property": "C93",
   "status": "partial",
   "theorems": [
    "c93_callback_reports_truthfully",
    "c93_bytes_are_read_in_order",
    "c93_nothing_waits_at_rest_partial",
    "c93_all_lines_dispatched_at_rest_partial",
    "c93_a_read_is_always_possible",
    "c93_every_byte_is_eventually_read_partial",
    "c93_every_byte_is_read_while_the_modem_talks",
    "c93_answer_left_behind_refuted"
   ],
   "note": "order of the bytes and the callback report: proved in full; nothing unread at rest and eventual reading: proved for executions in which no read finds the buffer full and the platform accepts the events set from the interrupt, and, full buffers included, as long as the modem keeps sending; violated by the code when input exactly fills the buffer (C21): the rest stays unread until the modem sends again"
  },
  {
   "property": "C94",
   "status": "proved",
   "theorems": [
    "c94_unusable_arguments_are_refused",
    "c94_usable_arguments_pass"
   ],
   "note": ""
  },
  {
   "property": "C95",
   "status": "partial",
   "theorems": [
    "c95_error_diagnostic_reads_live_text",
    "c95_undisturbed_diagnostic_reads_live_text_partial",
    "c95_undefined_response_diagnostic_refuted"
   ],
   "note": "the diagnostic about an error answer: proved in full; violated by the code in the diagnostic about an undefined response (cellular_pktio.c:796 loads pCurrentCmd twice without the mutex): proved there when no request starts or ends meanwhile. Without logging macros nothing is read"
  },
  {
   "property": "C96",
   "status": "partial",
   "theorems": [
    "c96_basic_codes_always_in_force",
    "c96_configured_tables_stay_partial",
    "c96_configured_table_is_lost_refuted"
   ],
   "note": "violated by the code: the first request with a success table of its own (AtcmdRequestSuccessToken, DataSendSuccessToken) sets the configured extra table to NULL for good; proved that success and error tables are always in force and that all are as long as no such request is made"
  },
  {
   "property": "C97",
   "status": "partial",
   "theorems": [
    "c97_reports_reach_the_application_partial",
    "c97_fragmentation_partial",
    "c97_report_lost_refuted",
    "c97_no_memory_refuted"
   ],
   "note": "violated by the code for a report behind a refused line in the same chunk and when there is no memory for its copy; proved end to end otherwise (text streams, no registration query in flight, reads with room)"
  },
  {
   "property": "C98",
   "status": "proved",
   "theorems": [
    "c98_stores_add_up",
    "c98_one_moment",
    "c98_never_older"
   ],
   "note": "every run of AtData.v: one action per store, load and mutex operation"
  },
  {
   "property": "C99",
   "status": "proved",
   "theorems": [
    "c99_calls_return_what_the_bytes_say",
    "c99_response_is_complete",
    "c99_at_most_once",
    "c99_no_undefined_behaviour",
    "c99_answer_ends_the_wait",
    "whole_reader_agrees",
    "whole_read_agrees"
   ],
   "note": "Whole.v composes Request.v (threads) and Pktio.v (receive buffer) on bytes; proved by simulation; the answers are text lines (no raw data callbacks); whole_reader_agrees and whole_read_agrees prove that the reader of the composition is the one of Pktio.v"
  },
  {
   "property": "C100",
   "status": "proved",
   "theorems": [
    "c100_buffer_accesses_are_defined",
    "c100_requests_stay_separate",
    "c100_results_are_what_the_modem_sent"
   ],
   "note": "same model, arbitrary bytes; a call through a response callback cleared meanwhile is C31, reads without room are C20"
  },
  {
   "property": "C101",
   "status": "proved",
   "theorems": [
    "c101_threads_see_their_own_answers",
    "c101_api_result_is_that_of_its_own_answers"
   ],
   "note": "the API functions of G3pp.v on top of Whole.v (C99): what a response callback returns is what it makes of the lines it read; fifteen API functions (api_function in SpecWire.v)"
  },
  {
   "property": "C102",
   "status": "proved",
   "theorems": [
    "c102_answer_ends_the_wait",
    "c102_answered_call_returns"
   ],
   "note": "infinite executions of Whole.v; hypotheses: conforming modem (C99), reads with room (C20), a busy reader acts, reads deliver at least one byte if there is one, enabled threads act"
  },
  {
   "property": "C103",
   "status": "partial",
   "theorems": [
    "c103_calls_return_what_the_bytes_say",
    "c103_nothing_is_left_at_rest_partial",
    "c103_answer_ends_the_wait_partial",
    "c103_answered_call_returns_partial",
    "c103_full_buffer_refuted"
   ],
   "note": "Driven.v: Whole.v plus interrupt, receive callback, event bit and sleeping reader. Missing: a read that finds the buffer full to its end makes the reader sleep with bytes left in the comm interface (c103_full_buffer_refuted (configured size 400), an infinite fair execution in which the call never ends without its time-out); if the modem never falls silent that only delays (second case of not_cut_off)"
  },
  {
   "property": "C104",
   "status": "partial",
   "theorems": [
    "c104_buffer_accesses_are_defined_partial",
    "c104_payload_is_cut_exactly_partial",
    "c104_callback_only_during_its_request_partial",
    "c104_callback_of_the_request_is_asked_partial",
    "c104_late_announcement_refuted",
    "c104_timeout_after_announcement_refuted",
    "c104_callback_after_return_refuted"
   ],
   "note": "Payload.v: Whole.v with the input-buffer callback, data prefix and data-send prefix callbacks. Missing: an announcement that arrives when no command expects it (late answer), or whose request times out before the reader has looked at its line, ends in a NULL dereference (c104_late_announcement_refuted, c104_timeout_after_announcement_refuted); a request that ends between the copy of the pointer and the call (c104_callback_after_return_refuted)"
  }
 ]
}