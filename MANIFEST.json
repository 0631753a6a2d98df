{
 "claims": [
  {
   "property": "C01",
   "status": "proved",
   "theorems": [
    "C01_store_layout",
    "C01_load_value",
    "C01_round_trip_unsigned",
    "C01_round_trip_signed",
    "C01_load_store",
    "C01_signed_value"
   ],
   "note": "Stored bytes, reading, both round trips, signed and unsigned."
  },
  {
   "property": "C02",
   "status": "proved",
   "theorems": [
    "C02_pair_decodes"
   ],
   "note": "Both length forms, arbitrary surrounding memory."
  },
  {
   "property": "C03",
   "status": "proved",
   "theorems": [
    "C03_memory_safe",
    "C03_success_sound",
    "C03_refused_iff_incomplete",
    "C03_truncated_refused"
   ],
   "note": "Memory safety, soundness of success, refusal iff no complete pair."
  },
  {
   "property": "C04",
   "status": "proved",
   "theorems": [
    "C04_record_size_least_multiple"
   ],
   "note": ""
  },
  {
   "property": "C05",
   "status": "proved",
   "theorems": [
    "C05_narrow_stream_exact"
   ],
   "note": ""
  },
  {
   "property": "C06",
   "status": "proved",
   "theorems": [
    "C06_narrow_records_well_formed",
    "C06_wide_records_well_formed"
   ],
   "note": ""
  },
  {
   "property": "C07",
   "status": "proved",
   "theorems": [
    "C07_wide_stream_exact",
    "C07_utf8_recoverable",
    "C07_wide_flush_exact"
   ],
   "note": ""
  },
  {
   "property": "C08",
   "status": "proved",
   "theorems": [
    "C08_html_narrow",
    "C08_html_wide",
    "C08_puts_bypass_encoding",
    "C08_url_narrow"
   ],
   "note": ""
  },
  {
   "property": "C09",
   "status": "proved",
   "theorems": [
    "C09_url_round_trip"
   ],
   "note": ""
  },
  {
   "property": "C10",
   "status": "proved",
   "theorems": [
    "C10_percent_decoding_total"
   ],
   "note": ""
  },
  {
   "property": "C11",
   "status": "proved",
   "theorems": [
    "C11_decode_total",
    "C11_round_trip",
    "C11_any_spelling",
    "C11_bare_field_merges"
   ],
   "note": "Total characterisation, round trip, and the merging of a field without '='."
  },
  {
   "property": "C12",
   "status": "proved",
   "theorems": [
    "C12_round_trip",
    "C12_decode_safe"
   ],
   "note": "Both directions and safety of decoding any text."
  },
  {
   "property": "C13",
   "status": "proved",
   "theorems": [
    "C13_round_trip",
    "C13_distinct_ids_distinct_texts",
    "C13_determined_iff_well_formed"
   ],
   "note": "Also: exactly which texts determine all 15 bytes."
  },
  {
   "property": "C14",
   "status": "proved",
   "theorems": [
    "C14_get_sound",
    "C14_get_exact",
    "C14_generate_fresh",
    "C14_size_counts"
   ],
   "note": "Soundness for any clock; exactness for a clock that never goes back. Operations are atomic (one mutex)."
  },
  {
   "property": "C15",
   "status": "proved",
   "theorems": [
    "C15_printed_text_is_standard",
    "C15_print_assign",
    "C15_print_extract",
    "C15_reads_past_end_refuted"
   ],
   "note": "Round trip through assign and through operator>> for all addresses, with one readable character after the text (C strings have it); without it see C15_reads_past_end_refuted."
  },
  {
   "property": "C16",
   "status": "proved",
   "theorems": [
    "C16_mask_bits",
    "C16_mask_address",
    "C16_mask_laws",
    "C16_order_bytes",
    "C16_strict_total_order",
    "C16_false_iff_zero"
   ],
   "note": ""
  },
  {
   "property": "C17",
   "status": "proved",
   "theorems": [
    "C17_reassembly",
    "C17_all_delivered",
    "C17_progress",
    "C17_no_undefined_step",
    "C17_lost",
    "C17_half_closed_record_lost_refuted"
   ],
   "note": "Full statement proved; C17_lost bounds what is lost at closing, C17_half_closed_record_lost_refuted shows that the bare header is lost (REFUTED beyond)."
  },
  {
   "property": "C18",
   "status": "proved",
   "theorems": [
    "C18_isolation",
    "C18_notified_once",
    "C18_output_leaves_input",
    "C18_write_error_silent_refuted"
   ],
   "note": "Full statement proved. REFUTED beyond: a connection closed because a write failed is not notified (C18_write_error_silent_refuted)."
  },
  {
   "property": "C19",
   "status": "proved",
   "theorems": [
    "C19_prefix",
    "C19_drained",
    "C19_half_closed_dropped"
   ],
   "note": "Failure of a connection includes the peer closing its side: then records are dropped (C19_half_closed_dropped)."
  },
  {
   "property": "C20",
   "status": "proved",
   "theorems": [
    "C20_close_after_final",
    "C20_open_until_written",
    "C20_nothing_else_closes"
   ],
   "note": ""
  },
  {
   "property": "C21",
   "status": "proved",
   "theorems": [
    "C21_bounded",
    "C21_not_slept_over",
    "C21_no_deadlock"
   ],
   "note": "Model/Wake.v: every interleaving of the I/O thread with any number of callers of send, stop, terminate and wake."
  },
  {
   "property": "C22",
   "status": "proved",
   "theorems": [
    "C22_strict_total_order",
    "C22_connection_order",
    "C22_connection_range",
    "C22_lookup",
    "C22_lookup_iff_stored"
   ],
   "note": "std::map is modelled by its documented operations over the comparison."
  },
  {
   "property": "C23",
   "status": "proved",
   "theorems": [
    "C23_ends_once",
    "C23_batches_irrelevant",
    "C23_all_output_before_end"
   ],
   "note": "For every message sequence and application; also the exact text of both streams and independence of batching."
  },
  {
   "property": "C24",
   "status": "proved",
   "theorems": [
    "C24_bounded",
    "C24_too_big_announced",
    "C24_too_much_sent"
   ],
   "note": "Bound in every state and call, plus both too-large endings. Assumes the application does not itself alter the announced length or raw body."
  },
  {
   "property": "C25",
   "status": "proved",
   "theorems": [
    "C25_body",
    "C25_parsed",
    "C25_no_body",
    "C25_form"
   ],
   "note": "Every split; the body reaches inProcessor, the parser and the response; forms end to end. Malformed requests are C27."
  },
  {
   "property": "C26",
   "status": "proved",
   "theorems": [
    "C26_described",
    "C26_split_irrelevant",
    "C26_cut_pair_lost",
    "C26_straddling_refuted",
    "C26_addresses_exist"
   ],
   "note": "For every split at pair boundaries; pairs cut by a record are lost and a forged variable is exhibited."
  },
  {
   "property": "C27",
   "status": "proved",
   "theorems": [
    "C27_abort",
    "C27_disorder",
    "C27_role",
    "C27_unknown_content"
   ],
   "note": "Abort, disorder, unknown role, unknown content: exact calls, output and status in every reachable state."
  },
  {
   "property": "C28",
   "status": "proved",
   "theorems": [
    "C28_one_handler"
   ],
   "note": "any number of threads, every interleaving of handlers, pushes, losses, signals"
  },
  {
   "property": "C29",
   "status": "proved",
   "theorems": [
    "C29_not_stranded",
    "C29_somebody_awake",
    "C29_rest"
   ],
   "note": "the five places a pending message can be attended to are spelled out; plus: no state where all threads sleep with a task queued; at rest every queue of a live request is empty"
  },
  {
   "property": "C30",
   "status": "proved",
   "theorems": [
    "C30_in_order"
   ],
   "note": "equation between the history of pushes, of takes and the queue"
  },
  {
   "property": "C31",
   "status": "proved",
   "theorems": [
    "C31_use_while_alive",
    "C31_use_while_alive_refuted",
    "C31_destroyed_why"
   ],
   "note": "The one place (manager.cpp 302-303) is characterised by C31_use_while_alive and shown to be reached by C31_use_while_alive_refuted, which REFUTES the claim that no removed request is used."
  },
  {
   "property": "C32",
   "status": "proved",
   "theorems": [
    "C32_only_its_own",
    "C32_all",
    "C32_others_stay",
    "C32_id_65535",
    "C32_leak"
   ],
   "note": "removal of exactly the connection's requests not being handled, while other threads go on; witnesses for id 65535 and for the left-over request"
  },
  {
   "property": "C33",
   "status": "proved",
   "theorems": [
    "C33_leave_only",
    "C33_terminate_wakes",
    "C33_stop_ends",
    "C33_stop_ends_refuted",
    "C33_terminate_ends",
    "C33_late_request_refuted"
   ],
   "note": "Full statement proved: leaving only when due, waking on terminate, all gone after terminate, all gone after stop unless the last request was lost. REFUTED beyond: the last request lost with its connection (C33_stop_ends_refuted), requests that come in after the threads have left (C33_late_request_refuted)."
  },
  {
   "property": "C34",
   "status": "proved",
   "theorems": [
    "C34_unknown_type",
    "C34_get_values_never_ends_refuted",
    "C34_get_values_flood_refuted",
    "C34_values",
    "C34_reply_length_refuted",
    "C34_reply_aligned"
   ],
   "note": "Exact for every management record. REFUTED: that GET_VALUES is answered with finitely many well-formed records (C34_get_values_never_ends_refuted, C34_get_values_flood_refuted, C34_reply_length_refuted, which are part of the statement)."
  },
  {
   "property": "C35",
   "status": "proved",
   "theorems": [
    "C35_round_trip",
    "C35_bounded",
    "C35_request",
    "C35_any_body",
    "C35_any_content",
    "C35_quoted_boundary_refuted"
   ],
   "note": "Round trip for parts with names without quotes and content types without line ends, any bodies not containing the boundary, any boundary without quote, space and CR (boundary must not consist of dashes only). A quoted boundary parameter is not unquoted: C35_quoted_boundary_refuted."
  },
  {
   "property": "C36",
   "status": "proved",
   "theorems": [
    "C36_variable",
    "C36_others_last_wins",
    "C36_others_untouched",
    "C36_not_sent",
    "C36_number_overflow_refuted",
    "C36_number_past_end_refuted"
   ],
   "note": "Exact conversions for all values they are defined for (var_ok); overflow and the read past a record without padding are proved undefined."
  },
  {
   "property": "C37",
   "status": "proved",
   "theorems": [
    "C37_block_history",
    "C37_block_step"
   ],
   "note": "All histories of operations."
  },
  {
   "property": "C38",
   "status": "proved",
   "theorems": [
    "C38_char_content",
    "C38_char_defined",
    "C38_char_ends",
    "C38_char_terminates",
    "C38_char_stuck",
    "C38_char_terminates_refuted",
    "C38_taken_destroyed_refuted",
    "C38_wide_content",
    "C38_wide_kept",
    "C38_wide_content_refuted"
   ],
   "note": "Full statement proved, with the exact condition under which writing ends (C38_char_ends, C38_char_stuck). REFUTED beyond: an escape across the end of a chunk spins for ever, destructor after data() is UB, wide text with an unencodable character stored twice."
  },
  {
   "property": "C39",
   "status": "proved",
   "theorems": [
    "C39_narrow",
    "C39_wide",
    "C39_once",
    "C39_destroyed_refuted"
   ],
   "note": "Full statement proved. Exact for every body and every sequence of buffer sizes, narrow and wide (announced size, order, each byte once). REFUTED beyond the statement: the destructor of a narrow request whose body was read out accesses an empty list."
  },
  {
   "property": "C40",
   "status": "proved",
   "theorems": [
    "C40_narrow",
    "C40_wide",
    "C40_wide_refuted",
    "C40_bad_byte_refuted",
    "C40_late_length_refuted",
    "C40_late_length_ub_refuted",
    "C40_big_length_refuted"
   ],
   "note": "Full statement proved. REFUTED beyond: split character aborts, bad byte loses the piece, late Content-Length discards data or is UB, Content-Length >= 2^31 throws."
  },
  {
   "property": "C41",
   "status": "proved",
   "theorems": [
    "C41_bound",
    "C41_order",
    "C41_once",
    "C41_callbacks",
    "C41_callback_once",
    "C41_stop",
    "C41_callback_at_stop",
    "C41_noticed",
    "C41_no_deadlock",
    "C41_no_fail",
    "C41_twice_refuted",
    "C41_reuse_refuted"
   ],
   "note": "Full statement proved. Proved for every interleaving at sequentially consistent accesses. REFUTED beyond the statement for requests that are used again: queued twice (process fails), re-armed from another thread told by the callback (completion not reported). libcurl, timeouts and the poll list are external."
  },
  {
   "property": "C42",
   "status": "proved",
   "theorems": [
    "C42_order",
    "C42_accepted",
    "C42_lines",
    "C42_protocol",
    "C42_ends",
    "C42_all_sent",
    "C42_delivers",
    "C42_idle_refuted",
    "C42_idle_undefined_refuted",
    "C42_blank_refuted",
    "C42_hangup_refuted",
    "C42_half_line_refuted",
    "C42_last_extension_refuted",
    "C42_long_greeting_refuted",
    "C42_injection_refuted",
    "C42_twice_refuted",
    "C42_dropped_refuted",
    "C42_crlf_refuted"
   ],
   "note": "Full statement proved. Proved for every execution: order and no loss, what letting go of an email implies, lines, protocol order, ending, delivery to a server that plays its part. REFUTED beyond the statement, with executions: the idle thread never waits and reads an indeterminate variable, empty line or hang-up undefined, unterminated reply believed, 8BITMIME last and multi-line greeting refused, command injection by addresses, sent more than once, dropped without recipient, bare LF."
  },
  {
   "property": "C43",
   "status": "proved",
   "theorems": [
    "C43_body",
    "C43_rest_refuted",
    "C43_dot_refuted",
    "C43_smuggled_refuted"
   ],
   "note": "Full statement proved. Exact condition proved: the body arrives just when no line begins with a dot. REFUTED beyond the statement for other bodies: no dot stuffing, so the message is damaged, cut short, or its rest taken for commands."
  },
  {
   "property": "C44",
   "status": "proved",
   "theorems": [
    "C44_sent",
    "C44_query",
    "C44_empty_bytea_refuted",
    "C44_received",
    "C44_back",
    "C44_direct",
    "C44_number_at",
    "C44_text_at",
    "C44_numbers_overflow_refuted",
    "C44_texts_overflow_refuted",
    "C44_sized_refuted",
    "C44_wide_refuted",
    "C44_wide_array_refuted",
    "C44_nulls_refuted",
    "C44_address_refuted",
    "C44_time_refuted",
    "C44_date_refuted"
   ],
   "note": "Proved for all values named, both directions, against a specification of PostgreSQL's send and receive functions. REFUTED beyond them: empty byte strings (data() of an empty vector is a null pointer with libstdc++), arrays of 4 GiB, arrays made by size, unencodable wide texts, arrays with nulls, IPv4 addresses sent back, infinite times. The server's own check of text encodings is not modelled."
  },
  {
   "property": "C45",
   "status": "proved",
   "theorems": [
    "C45_accepts",
    "C45_count",
    "C45_first",
    "C45_none",
    "C45_row",
    "C45_null_refuted"
   ],
   "note": "verify characterised exactly; row() proved for rows without nulls, and refuted (C45_null_refuted) for rows with nulls although verify returned 0. Columns are what PQftype and PQfsize say."
  },
  {
   "property": "C46",
   "status": "proved",
   "theorems": [
    "C46_queue",
    "C46_order",
    "C46_one",
    "C46_concurrency",
    "C46_where",
    "C46_once",
    "C46_results",
    "C46_sleep",
    "C46_stop_refuted",
    "C46_failed_refuted",
    "C46_notice_refuted",
    "C46_no_results_refuted",
    "C46_again_refuted",
    "C46_reuse_refuted",
    "C46_late_refuted",
    "C46_restart_refuted",
    "C46_race_refuted",
    "C46_long_refuted"
   ],
   "note": "Order, exclusiveness, accounting, single callbacks and absence of lost wake-ups proved for every interleaving. REFUTED in the respects named at the end of the statement. libpq and the server are inputs of the model."
  },
  {
   "property": "C47",
   "status": "proved",
   "theorems": [
    "C47_pick",
    "C47_long_language_refuted",
    "C47_nul_refuted"
   ],
   "note": "Exact characterisation; languages longer than five characters are skipped and NUL bytes overrun (refuted witnesses)."
  },
  {
   "property": "C48",
   "status": "proved",
   "theorems": [
    "C48_listen",
    "C48_listen_refuted",
    "C48_connect",
    "C48_connect_refuted"
   ],
   "note": "Exact behaviour proved for every list of candidates and failure pattern. REFUTED: that listening ends, and that connecting tries all (C48_listen_refuted, C48_connect_refuted)."
  },
  {
   "property": "C49",
   "status": "proved",
   "theorems": [
    "C49_stream",
    "C49_reply",
    "C49_unknown",
    "C49_end",
    "C49_undetermined_refuted"
   ],
   "note": "Exact set of undetermined bytes for each kind of record sent. REFUTED: that there are none."
  },
  {
   "property": "C50",
   "status": "proved",
   "theorems": [
    "C50_never_wrong",
    "C50_valid_open",
    "C50_polled_known",
    "C50_stays_closed",
    "C50_size",
    "C50_size_taken",
    "C50_adopted",
    "C50_size_refuted",
    "C50_adopted_refuted",
    "C50_ended"
   ],
   "note": "For all histories and kernel answers. That the size counts only the open connections, and that a connection the kernel takes is always kept, are REFUTED by witnesses; the statement says what holds instead (C50_size, C50_adopted)."
  },
  {
   "property": "C51",
   "status": "proved",
   "theorems": [
    "C51_no_deadlock",
    "C51_signal_refuted"
   ],
   "note": "progress, also under a writer preferring lock; the two provisos are necessary: C51_signal_refuted and C31_use_while_alive_refuted"
  },
  {
   "property": "C52",
   "status": "proved",
   "theorems": [
    "C52_handled",
    "C52_seen",
    "C52_defined",
    "C52_completes",
    "C52_begun",
    "C52_arrives",
    "C52_reused_id_refuted"
   ],
   "note": "Proved for the whole-server model (transceiver, manager and requests composed): what a request is given and handles (C52_handled), the calls for a web server's request (C52_seen), no undefined step (C52_defined), arrival in full of every request that was begun (C52_completes), the fate of every BEGIN_REQUEST (C52_begun), arrival of the first request with an id (C52_arrives). C52_reused_id_refuted: ids used again can be lost. Executions end where a handler's step is undefined or does not end."
  },
  {
   "property": "C53",
   "status": "proved",
   "theorems": [
    "C53_expiration_after_get",
    "C53_expiration_stale_refuted"
   ],
   "note": "Proved as stated, right after a lookup. REFUTED in general (C53_expiration_stale_refuted)."
  },
  {
   "property": "C54",
   "status": "proved",
   "theorems": [
    "C54_assign_standard",
    "C54_extract_standard",
    "C54_compatible_form_refuted"
   ],
   "note": "Proved for all standard texts except \"::a.b.c.d\"; REFUTED for those."
  },
  {
   "property": "C55",
   "status": "proved",
   "theorems": [
    "C55_management_queue",
    "C55_management_in_order"
   ],
   "note": "counting invariant between m_tasks, threads in flight and m_messages; order by history"
  },
  {
   "property": "C56",
   "status": "proved",
   "theorems": [
    "C56_begins_once",
    "C56_distinct"
   ],
   "note": "history of creations against the objects"
  },
  {
   "property": "C57",
   "status": "proved",
   "theorems": [
    "C57_complete_ends",
    "C57_complete_gone"
   ],
   "note": "invariant and its consequence at rest"
  },
  {
   "property": "C58",
   "status": "proved",
   "theorems": [
    "C58_listener",
    "C58_listener_refuted",
    "C58_refuses"
   ],
   "note": "For every interleaving in which stop's two flags do not straddle the refresh of the listeners; with a straddling one the listeners stay in the poll list (REFUTED by witness C58_listener_refuted). No connection is taken in once accepting is off, in any case."
  },
  {
   "property": "C59",
   "status": "proved",
   "theorems": [
    "C59_wire",
    "C59_whose",
    "C59_response",
    "C59_delivered"
   ],
   "note": "Proved for the whole-server model: C59_wire, C59_whose, C59_response, C59_delivered. Bytes of a record that the code leaves undetermined are None on the wire (see C49)."
  },
  {
   "property": "C60",
   "status": "proved",
   "theorems": [
    "C60_comes_to_rest",
    "C60_well_founded",
    "C60_rest_is_idle",
    "C60_nothing_left"
   ],
   "note": "Well-foundedness of the steps the code takes by itself (a lexicographic measure over all threads), idleness of the states at rest, and what idleness means for the queues. The hypotheses of C60_rest_is_idle are those of C51_no_deadlock; both are violated by real executions, which C51_signal_refuted and C32 exhibit."
  },
  {
   "property": "C61",
   "status": "proved",
   "theorems": [
    "C61_integers",
    "C61_large",
    "C61_fraction",
    "C61_cents",
    "C61_long_refuted",
    "C61_points_refuted"
   ],
   "note": "All of the statement is proved, the error bound with IEEE arithmetic as in Coq's SpecFloat; REFUTED beyond it: C61_long_refuted, C61_points_refuted"
  },
  {
   "property": "C62",
   "status": "proved",
   "theorems": [
    "C62_same_id",
    "C62_at_most_once",
    "C62_arrives",
    "C62_another_request_refuted"
   ],
   "note": "C62_same_id, C62_at_most_once, C62_arrives. REFUTED: that a message reaches only the request it was meant for (C62_another_request_refuted): a late message reaches another request with the id used again, which responds before its parameters have arrived."
  },
  {
   "property": "C63",
   "status": "proved",
   "theorems": [
    "C63_extract_accepts",
    "C63_assign_accepts",
    "C63_signs_refuted",
    "C63_long_group_refuted",
    "C63_letters_refuted",
    "C63_indeterminate_refuted"
   ],
   "note": "Full statement proved. Proved: exact shape of what can be accepted, from a stream and from memory. REFUTED beyond the statement with respect to the standard's form: signs, long groups, letters behind the first dot in memory, indeterminate bytes after a quad behind too few groups."
  },
  {
   "property": "C64",
   "status": "proved",
   "theorems": [
    "C64_destroy",
    "C64_start",
    "C64_start_again",
    "C64_threads",
    "C64_resize",
    "C64_join",
    "C64_join_waits",
    "C64_leaves",
    "C64_unjoined_refuted",
    "C64_early_join_refuted",
    "C64_resize_ignored_refuted",
    "C64_resize_abort_refuted",
    "C64_cancel_refuted"
   ],
   "note": "Full statement proved. Exact conditions proved for every sequence of calls. REFUTED beyond the statement in the respects named in the statement (unjoined restart, early join, ignored or aborting resize, stop undone by start)."
  },
  {
   "property": "C65",
   "status": "proved",
   "theorems": [
    "C65_disorder",
    "C65_role",
    "C65_announced",
    "C65_too_much",
    "C65_unknown",
    "C65_abort",
    "C65_after_output",
    "C65_escaped_refuted"
   ],
   "note": "The exact answer to every refused request; the proviso on escaping is part of the statement (C65_escaped_refuted shows it is needed)."
  },
  {
   "property": "C66",
   "status": "proved",
   "theorems": [
    "C66_whole_lines",
    "C66_none_lost",
    "C66_errors",
    "C66_exit",
    "C66_fail_final",
    "C66_defined",
    "C66_goes_on",
    "C66_fail_refuted",
    "C66_nested_refuted",
    "C66_signal_refuted",
    "C66_exit_refuted"
   ],
   "note": "Exact behaviour proved; the four ways in which the documented behaviour fails are proved as refutations (suppressed FAIL_LOG, a message that logs, a signal while logging, a destructor that logs during exit)."
  },
  {
   "property": "C67",
   "status": "proved",
   "theorems": [
    "C67_destroy",
    "C67_start",
    "C67_leaves",
    "C67_stop_kept",
    "C67_terminate_kept",
    "C67_join_waits",
    "C67_early",
    "C67_early_refuted",
    "C67_forgotten_refuted",
    "C67_unjoined_refuted",
    "C67_late_refuted"
   ],
   "note": "Full statement proved. Exact conditions proved for every sequence of calls. REFUTED beyond the statement in the respects named in the statement (stop before start, unjoined restart, late work, uninitialised members)."
  },
  {
   "property": "C68",
   "status": "proved",
   "theorems": [
    "C68_list",
    "C68_add",
    "C68_del",
    "C68_poll",
    "C68_waits",
    "C68_starved_refuted"
   ],
   "note": "All of the statement is proved; REFUTED without its last condition: fairness (C68_starved_refuted)"
  },
  {
   "property": "C69",
   "status": "proved",
   "theorems": [
    "C69_page",
    "C69_hello",
    "C69_echo",
    "C69_markup",
    "C69_file_refuted",
    "C69_language_refuted"
   ],
   "note": "Proved for every page program, request and environment. REFUTED: markup in the content of an uploaded file (C69_file_refuted), blank page after a language that is not ASCII (C69_language_refuted). How numbers, times and addresses are formatted is an input of the model."
  },
  {
   "property": "C70",
   "status": "proved",
   "theorems": [
    "C70_answer",
    "C70_cookie",
    "C70_login",
    "C70_logout",
    "C70_put_refuted",
    "C70_memory_refuted",
    "C70_header_refuted"
   ],
   "note": "Full statement proved for the library whose operator<< uses sputn; REFUTED beyond: ids unescaped by put, an empty cookie, line ends in the cookie (C70_put_refuted, C70_memory_refuted, C70_header_refuted)."
  },
  {
   "property": "C71",
   "status": "proved",
   "theorems": [
    "C71_queued",
    "C71_addresses",
    "C71_document",
    "C71_missing",
    "C71_get",
    "C71_message_refuted",
    "C71_smuggled_refuted",
    "C71_recipient_refuted"
   ],
   "note": "All of the statement is proved; REFUTED beyond it: no message field, a line of a single dot, an empty recipient (C71_message_refuted, C71_smuggled_refuted, C71_recipient_refuted)"
  },
  {
   "property": "C72",
   "status": "proved",
   "theorems": [
    "C72_resumed",
    "C72_answer",
    "C72_once",
    "C72_due",
    "C72_awake",
    "C72_live",
    "C72_stop",
    "C72_equal_refuted"
   ],
   "note": "All of the statement is proved; REFUTED for equal wakeups (C72_equal_refuted)"
  },
  {
   "property": "C73",
   "status": "proved",
   "theorems": [
    "C73_answer",
    "C73_revisit",
    "C73_stale_refuted",
    "C73_script_refuted"
   ],
   "note": "All of the statement is proved; REFUTED beyond it: C73_stale_refuted (a date without tag counts as tag 0), C73_script_refuted (script name not escaped)"
  },
  {
   "property": "C74",
   "status": "proved",
   "theorems": [
    "C74_answer",
    "C74_own",
    "C74_tags",
    "C74_null_refuted",
    "C74_late_refuted"
   ],
   "note": "All of the statement is proved; REFUTED for other rows: C74_null_refuted, C74_late_refuted"
  },
  {
   "property": "C75",
   "status": "proved",
   "theorems": [
    "C75_listens",
    "C75_guarded",
    "C75_failed",
    "C75_undefined",
    "C75_interface",
    "C75_destroyed",
    "C75_no_socket_left",
    "C75_long_name",
    "C75_left_over_refuted",
    "C75_removes_refuted",
    "C75_owner_alone_refuted",
    "C75_unknown_owner_refuted"
   ],
   "note": "listen by name, interface and default as sequences of system calls with kernel answers as input (file names as texts, one owner thread); left-over files, removal, owner alone and unknown owner REFUTED with witnesses"
  },
  {
   "property": "C76",
   "status": "proved",
   "theorems": [
    "C76_races",
    "C76_safe",
    "C76_locks",
    "C76_send_refuted",
    "C76_stop_refuted",
    "C76_valid_refuted",
    "C76_listeners_refuted",
    "C76_curl_refuted",
    "C76_sql_queue_refuted",
    "C76_sql_connections_refuted"
   ],
   "note": "Races are sought over the control flow of all threads with every branch possible, so safety covers the code; each of the seven races has a schedule (C76_*_refuted)."
  },
  {
   "property": "C77",
   "status": "proved",
   "theorems": [
    "C77_no_cycle",
    "C77_no_deadlock"
   ],
   "note": "Over the same model: waiting follows a fixed order of locks."
  },
  {
   "property": "C78",
   "status": "proved",
   "theorems": [
    "C78_request",
    "C78_request_wide",
    "C78_again_refuted",
    "C78_added",
    "C78_ignored",
    "C78_headers_refuted",
    "C78_encoding_refuted",
    "C78_verify_refuted",
    "C78_url_refuted",
    "C78_again_wide_refuted",
    "C78_length_refuted",
    "C78_copy_refuted",
    "C78_flush_refuted"
   ],
   "note": "Full statement proved; its refuted parts have witnesses, and C78_again_refuted holds for every narrow body that is read to its end and does not end with a chunk. C78_request assumes that composing the narrow request ended (C78_request_wide shows it for wide); read-callback offers below 2^32. C78_ignored is for narrow and for plain writing (with libstdc++ before 12 a flush is undefined, C78_flush_refuted). Using an object while its transfer runs is left out; libcurl's treatment of options is external."
  },
  {
   "property": "C79",
   "status": "proved",
   "theorems": [
    "C79_no_cycle",
    "C79_no_deadlock",
    "C79_locks",
    "C79_races",
    "C79_tasks_refuted",
    "C79_waking_refuted",
    "C79_requests_refuted",
    "C79_queue_refuted",
    "C79_forever"
   ],
   "note": "Full statement proved; the four witnesses are C79_*_refuted, that they last is C79_forever. Over the lock-level model of C76/C77 with handlers of signals put in front of the code of any thread. The log's locks, SIGPIPE (whose handler does nothing) and signals around construction and destruction of the manager are left out."
  },
  {
   "property": "C80",
   "status": "proved",
   "theorems": [
    "C80_bounded",
    "C80_finite",
    "C80_reached",
    "C80_done",
    "C80_ends"
   ],
   "note": "All claims proved from the model of C46; the server's part is the predicate helpful, results objects are only needed for answers that have results."
  },
  {
   "property": "C81",
   "status": "proved",
   "theorems": [
    "C81_reaches",
    "C81_only",
    "C81_failed",
    "C81_taken_over"
   ],
   "note": "All claims proved; empty names (abstract addresses) are excluded."
  },
  {
   "property": "C82",
   "status": "proved",
   "theorems": [
    "C82_bounded",
    "C82_finite",
    "C82_reached",
    "C82_done",
    "C82_zero_refuted"
   ],
   "note": "Over the transition system of C41 (libcurl external: it decides which running requests it reports done). Steps of queue/stop/terminate in other threads count as things that come to the thread; for the liveness part they have finished."
  },
  {
   "property": "C83",
   "status": "proved",
   "theorems": [
    "C83_done",
    "C83_goes_on",
    "C83_stays",
    "C83_stops",
    "C83_retry",
    "C83_hammer_refuted",
    "C83_rounds_refuted"
   ],
   "note": "Over the transition system of C42. The uninitialised variable of mailer.cpp 74 is taken not to hold a line feed (C42 refutes defined behaviour otherwise). That poll returns at once when the group holds no socket (sockets.cpp 469) is part of the model of poll; the length of the wait is not modelled. k > 12 is needed for 250-8BITMIME to fit."
  },
  {
   "property": "C84",
   "status": "proved",
   "theorems": [
    "C84_form",
    "C84_recommended_exists",
    "C84_recommended_unique",
    "C84_recommended",
    "C84_tie_refuted",
    "C84_single_refuted",
    "C84_length",
    "C84_shortest_refuted",
    "C84_field"
   ],
   "note": "Form of the printed text characterised (iff); RFC 5952 met exactly when stated; refuted in general by two witnesses; length at most one above any standard text."
  },
  {
   "property": "C85",
   "status": "proved",
   "theorems": [
    "C85_written",
    "C85_goes_on",
    "C85_others_refuted",
    "C85_no_spin",
    "C85_spin_refuted"
   ],
   "note": "Progress of output and bound on the I/O thread's steps; stalling by one client and spinning shown by refutations."
  },
  {
   "property": "C86",
   "status": "proved",
   "theorems": [
    "C86_sent",
    "C86_null_refuted",
    "C86_gone_refuted",
    "C86_mixed_refuted"
   ],
   "note": "Proved for every history; values within the ranges of C44. REFUTED beyond the statement: nulls are never undone, arrays and moved texts assigned while a query waits are read after being freed, a text assigned in place goes with the old length. The order of the accesses is modelled, not that reading and assigning at the same time is a data race."
  },
  {
   "property": "C87",
   "status": "proved",
   "theorems": [
    "C87_comes_to_rest",
    "C87_well_founded",
    "C87_rest",
    "C87_never_stuck",
    "C87_written",
    "C87_answered"
   ],
   "note": "Over the model of the whole server (Model/System.v). That the I/O thread reads what has come in is a hypothesis of C87_answered (at poll, nothing unread on the connection), as are orderly (signals do not interrupt manager code, C32) and no_dangling (C31)."
  },
  {
   "property": "C88",
   "status": "proved",
   "theorems": [
    "C88_watched",
    "C88_told",
    "C88_sound",
    "C88_called",
    "C88_called_next",
    "C88_limit",
    "C88_full_refuted",
    "C88_stop_refuted",
    "C88_told_refuted",
    "C88_write_refuted"
   ],
   "note": "Full statement proved (model CurlerMulti: libcurl's reaction to each call is an input). REFUTED beyond it: requests done as soon as started are not reported and block the queue for ever (C88_full_refuted), stop does not end the thread then (C88_stop_refuted), after a time-out libcurl is told an uninitialised socket (C88_told_refuted), writability is never watched (C88_write_refuted)."
  },
  {
   "property": "C89",
   "status": "proved",
   "theorems": [
    "C89_order",
    "C89_steps",
    "C89_served",
    "C89_starved_refuted"
   ],
   "note": "Tasks are taken in the order queued (equation between queued, added, taken and left, every execution); steps of a handler thread bounded by the tasks and messages it takes and the times it is woken; hence a bound after which a task is taken. Refuted: turn independent of other requests' messages, terminate ends threads (infinite execution). Application code (between RProc and its return) counts as one step, as it is not modelled."
  },
  {
   "property": "C90",
   "status": "proved",
   "theorems": [
    "C90_leaves",
    "C90_written",
    "C90_ends",
    "C90_goes_on",
    "C90_join_refuted"
   ],
   "note": "Leaving, what is written, the bound and that the thread can go on are proved; that stop completes is refuted with a request left over on a closed connection."
  },
  {
   "property": "C91",
   "status": "proved",
   "theorems": [
    "C91_value",
    "C91_inside",
    "C91_overflow",
    "C91_end_refuted",
    "C91_least_refuted"
   ],
   "note": "Value, independence of what follows and overflow are proved for every width; reading past the end and the least value are refuted."
  },
  {
   "property": "C92",
   "status": "proved",
   "theorems": [
    "C92_input",
    "C92_requests",
    "C92_params_refuted",
    "C92_queue_refuted"
   ],
   "note": "Input buffer and number of requests bounded; parameters and message queue refuted (no bound)."
  },
  {
   "property": "C93",
   "status": "proved",
   "theorems": [
    "C93_text",
    "C93_any",
    "C93_form",
    "C93_multipart",
    "C93_round",
    "C93_invalid_refuted",
    "C93_keeps_refuted",
    "C93_cut_refuted",
    "C93_surrogate_refuted"
   ],
   "note": "For char applications vecToString copies the bytes (C11, C40). The conversion follows libstdc++ (strict: rejects surrogates, lenient: does not); the theorems for UTF-8 hold for both. The warning in the log is the only trace of bytes that are not UTF-8."
  },
  {
   "property": "C94",
   "status": "proved",
   "theorems": [
    "C94_query",
    "C94_cookies",
    "C94_path",
    "C94_wide",
    "C94_path_refuted",
    "C94_names_refuted"
   ],
   "note": "Pairs that straddle records are C26_straddling_refuted; numbers and addresses are C36."
  },
  {
   "property": "C95",
   "status": "proved",
   "theorems": [
    "C95_plain",
    "C95_unknown",
    "C95_ipv4",
    "C95_thousands",
    "C95_short",
    "C95_overflow_refuted",
    "C95_ipv4_text_refuted",
    "C95_showbase_refuted"
   ],
   "note": "All parts: text without grouping, unknown locale, IPv4 stays inside the buffer, exact condition for leaving it with groups of three; refuted: printing after setLocale (buffer overrun for IPv6, ::f,fff:a.b.c.d for IPv4), showbase."
  },
  {
   "property": "C96",
   "status": "proved",
   "theorems": [
    "C96_same",
    "C96_standard",
    "C96_dots_refuted",
    "C96_comma_refuted"
   ],
   "note": "Same as in the locale C when the separator follows no digit, hence every standard text; refuted: dots as separators (no IPv4 text is read), commas (a neighbour changes the address)."
  },
  {
   "property": "C97",
   "status": "proved",
   "theorems": [
    "C97_lines",
    "C97_locale_refuted",
    "C97_text_refuted",
    "C97_names_refuted",
    "C97_order_refuted"
   ],
   "note": "Exact for names in UTF-8 and for names with a byte no character starts with. REFUTED parts: C97_locale_refuted, C97_text_refuted, C97_names_refuted, C97_order_refuted, which are part of the statement."
  },
  {
   "property": "C98",
   "status": "proved",
   "theorems": [
    "C98_safe",
    "C98_freed",
    "C98_derived",
    "C98_writer",
    "C98_move",
    "C98_one_writer",
    "C98_two_writers_refuted",
    "C98_copy_refuted",
    "C98_base_refuted"
   ],
   "note": "REFUTED parts: C98_two_writers_refuted, C98_copy_refuted, C98_base_refuted, which are part of the statement."
  },
  {
   "property": "C99",
   "status": "proved",
   "theorems": [
    "C99_safe",
    "C99_once",
    "C99_valid",
    "C99_handling",
    "C99_same",
    "C99_assigned",
    "C99_close",
    "C99_end"
   ],
   "note": "Holds in full."
  }
 ]
}