{"claims": [
  {"property": "C01", "status": "proved", "theorems": ["C01_safe_segments"], "note": "Proved in full for the model."},
  {"property": "C02", "status": "proved", "theorems": ["C02_resolution", "C02_rejects_climbing", "C02_segments_exist"], "note": "Proved in full for the model."},
  {"property": "C03", "status": "proved", "theorems": ["C03_roundtrip", "C03_injective"], "note": "Proved in full for the model."},
  {"property": "C04", "status": "proved", "theorems": ["C04_slashes", "C04_compositional"], "note": "Proved in full for the model."},
  {"property": "C05", "status": "proved", "theorems": ["C05_subtract", "C05_subtract_none", "C05_concat"], "note": "Proved in full for the model."},
  {"property": "C06", "status": "partial", "theorems": ["C06_prefix_test_refuted", "C06_prefix_test_partial"], "note": "REFUTED as stated for the code at this commit: check_starts_with is symmetric; the _partial theorem gives what it computes exactly (one path is a prefix of the other)."},
  {"property": "C07", "status": "proved", "theorems": ["C07_matching", "C07_matching_novars"], "note": "Proved in full for the model."},
  {"property": "C08", "status": "proved", "theorems": ["C08_lookup", "C08_parsed_hypothesis"], "note": "Proved in full for the model."},
  {"property": "C09", "status": "proved", "theorems": ["C09_iteration"], "note": "Proved in full for the model."},
  {"property": "C10", "status": "proved", "theorems": ["C10_merge", "C10_rebuild"], "note": "Proved in full for the model."},
  {"property": "C11", "status": "proved", "theorems": ["C11_registration_order"], "note": "Proved in full for the model."},
  {"property": "C12", "status": "proved", "theorems": ["C12_mount_is_inline"], "note": "Proved in full for the model."},
  {"property": "C13", "status": "proved", "theorems": ["C13_rejected_registration", "C13_rejected_in_subrouter", "C13_error_reported", "C13_add_accepted"], "note": "Proved in full for the model."},
  {"property": "C14", "status": "proved", "theorems": ["C14_own_variables"], "note": "Proved in full for the model."},
  {"property": "C15", "status": "proved", "theorems": ["C15_method_isolation", "C15_add_route_every_method"], "note": "Proved in full for the model."},
  {"property": "C16", "status": "proved", "theorems": ["C16_stop_cuts", "C16_all_next"], "note": "Proved in full for the model."},
  {"property": "C17", "status": "proved", "theorems": ["C17_no_own_panic"], "note": "Proved in full for the model."},
  {"property": "C18", "status": "proved", "theorems": ["C18_line_ends", "C18_no_empty_line", "C18_head_read", "C18_head_rejected", "C18_head_incomplete", "C18_schedule_independent", "C18_utf8", "C18_characters"], "note": "Proved in full for the model."},
  {"property": "C19", "status": "partial", "theorems": ["C19_exact_body_partial", "C19_body_is_prefix_partial", "C19_refuted", "C19_numbers"], "note": "REFUTED as stated for the code at this commit: the body can contain bytes beyond Content-Length when they arrive with the head. Proved: the body is exactly the announced bytes when the stream carries exactly those, and in general a prefix of the stream of length Content-Length or of what one 512-byte read brought. C139_body gives the body exactly."},
  {"property": "C20", "status": "proved", "theorems": ["C20_truncated_head", "C20_every_cut", "C20_no_handler"], "note": "Proved in full for the model."},
  {"property": "C21", "status": "proved", "theorems": ["C21_header_round_trip", "C21_strict_round_trip"], "note": "Proved in full for the model."},
  {"property": "C22", "status": "proved", "theorems": ["C22_lookup_folds", "C22_accepted_blocks", "C22_absent_iff_no_such_header", "C22_lookup_by_name", "C22_capital_keys", "C22_letter_case"], "note": "Proved in full for the model."},
  {"property": "C23", "status": "proved", "theorems": ["C23_header_line", "C23_header_block"], "note": "Proved in full for the model."},
  {"property": "C24", "status": "partial", "theorems": ["C24_refuted", "C24_other_controls_rejected_partial", "C24_line_with_control_rejected_partial"], "note": "REFUTED as stated for the code at this commit: 0x1F passes the check; every other control character is rejected (_partial)."},
  {"property": "C25", "status": "proved", "theorems": ["C25_request_line", "C25_request_line_any_mode", "C25_panics", "C25_never_the_pseudo_method"], "note": "Proved in full for the model."},
  {"property": "C26", "status": "partial", "theorems": ["C26_refuted", "C26_other_versions_partial"], "note": "REFUTED as stated for the code at this commit: 2.0 prints as 0.2; the other versions round-trip (_partial)."},
  {"property": "C27", "status": "partial", "theorems": ["C27_refuted", "C27_exact_panic_set_partial", "C27_huge_length_panics", "C27_limits", "C27_no_answer"], "note": "REFUTED as stated for the code at this commit: seven kinds of panicking streams; the _partial theorem characterises exactly the streams that panic while reading (except where a stalled stream announces between isize::MAX+1 and isize::MAX+511 bytes and it depends on the segmentation), a further theorem covers lengths above isize::MAX+511. C139_panics closes that gap: the exact set given the bytes that came with the end of the head."},
  {"property": "C28", "status": "proved", "theorems": ["C28_keep_alive_header", "C28_trim", "C28_trim_all"], "note": "Proved in full for the model."},
  {"property": "C29", "status": "proved", "theorems": ["C29_host_required"], "note": "Proved in full for the model."},
  {"property": "C30", "status": "proved", "theorems": ["C30_keep_alive_decision"], "note": "Proved in full for the model."},
  {"property": "C31", "status": "proved", "theorems": ["C31_decode_escaped", "C31_no_percent", "C31_lone_percent", "C31_decode_meaning", "C31_decode_total"], "note": "Proved in full for the model."},
  {"property": "C32", "status": "partial", "theorems": ["C32_ascii_partial", "C32_refuted"], "note": "REFUTED as stated for the code at this commit: every non-ASCII character decodes wrongly (bytes are widened to Latin-1); ASCII text round-trips (_partial)."},
  {"property": "C33", "status": "partial", "theorems": ["C33_next_transparent_partial", "C33_peek_partial", "C33_every_peek_partial", "C33_refuted"], "note": "REFUTED as stated for the code at this commit: next() is transparent under every interleaving; two peeks after a reset are right when at most one item is buffered, and with two buffered items the second peek returns None."},
  {"property": "C34", "status": "proved", "theorems": ["C34_last_value"], "note": "Proved in full for the model."},
  {"property": "C35", "status": "partial", "theorems": ["C35_refuted", "C35_items_partial"], "note": "REFUTED as stated for the code at this commit: shown for every path, key and value of plain text: the key is absent and 'p?k' maps to 'v/'."},
  {"property": "C36", "status": "partial", "theorems": ["C36_query_in_path_partial", "C36_dispatch_partial", "C36_refuted"], "note": "REFUTED as stated for the code at this commit: concrete router and request; in general the query becomes part of the last path segment, a route keeps matching exactly if its last segment is a variable, and that variable then contains the query."},
  {"property": "C37", "status": "proved", "theorems": ["C37_precedence", "C37_items_unique"], "note": "Proved in full for the model."},
  {"property": "C38", "status": "proved", "theorems": ["C38_request_cookies"], "note": "Proved in full for the model."},
  {"property": "C39", "status": "partial", "theorems": ["C39_head_terminated_partial", "C39_cookies_refuted"], "note": "REFUTED as stated for the code at this commit: every response with a cookie (and clean texts) has an unterminated head; without cookies the head is terminated (_partial)."},
  {"property": "C40", "status": "proved", "theorems": ["C40_answer_bytes", "C40_round_trip", "C40_reading_unique", "C40_history"], "note": "Proved in full for the model."},
  {"property": "C41", "status": "partial", "theorems": ["C41_no_injection_partial", "C41_quoted", "C41_value_injects_refuted", "C41_which_calls", "C41_body_injects_refuted", "C41_status_injects_refuted", "C41_set_refuted", "C41_redirect_refuted", "C41_type_refuted", "C41_body_refuted"], "note": "REFUTED as stated for the code at this commit: set, redirect and with_type copy line breaks; charset and attachment names are quoted and cannot inject, and clean arguments stay clean under every call history (_partial)."},
  {"property": "C42", "status": "proved", "theorems": ["C42_send_length", "C42_body_transmitted"], "note": "Proved in full for the model."},
  {"property": "C43", "status": "partial", "theorems": ["C43_length_consistent_partial", "C43_send_file_refuted"], "note": "REFUTED as stated for the code at this commit: send followed by send_file announces the old length; consistent for every history without a successful send_file (_partial)."},
  {"property": "C44", "status": "partial", "theorems": ["C44_send_file_refuted"], "note": "REFUTED as stated for the code at this commit: for every file, nothing is transmitted after the head."},
  {"property": "C45", "status": "proved", "theorems": ["C45_last_set_wins", "C45_others_unchanged", "C45_names_unique"], "note": "Proved in full for the model."},
  {"property": "C46", "status": "proved", "theorems": ["C46_charset_written", "C46_chosen_type_kept", "C46_default_type", "C46_charset_text"], "note": "Proved in full for the model."},
  {"property": "C47", "status": "proved", "theorems": ["C47_table", "C47_all_codes", "C47_numbers_unique", "C47_identifiers_unique", "C47_range", "C47_status_line", "C47_status_line_identifies", "C47_registered"], "note": "Proved in full for the model."},
  {"property": "C48", "status": "proved", "theorems": ["C48_date_correct", "C48_calendar_unique", "C48_calendar_injective", "C48_calendar_valid"], "note": "Proved in full for the model."},
  {"property": "C49", "status": "partial", "theorems": ["C49_format_partial", "C49_september_refuted", "C49_september_text_partial"], "note": "REFUTED as stated for the code at this commit: every September date says 'Sept' (30 characters); the other eleven months are proved from 1970 to 9999."},
  {"property": "C50", "status": "proved", "theorems": ["C50_no_overflow", "C50_clock", "C50_below"], "note": "Proved in full for the model."},
  {"property": "C51", "status": "proved", "theorems": ["C51_case_folded", "C51_known", "C51_unknown", "C51_web_types", "C51_extension", "C51_no_extension"], "note": "proved for ASCII extensions in any letter case; for others the Unicode tables are an arbitrary function."},
  {"property": "C52", "status": "partial", "theorems": ["C52_well_formed_partial", "C52_any_extension", "C52_bin_refuted"], "note": "REFUTED as stated for the code at this commit: an ASCII extension gets a malformed type exactly when it is 'bin' in some letter case."},
  {"property": "C53", "status": "proved", "theorems": ["C53_last_call_wins", "C53_determined", "C53_with_config", "C53_settings"], "note": "Proved in full for the model."},
  {"property": "C54", "status": "partial", "theorems": ["C54_nothing_dropped_partial", "C54_worker_threads_refuted", "C54_ssl_port_refuted"], "note": "REFUTED as stated for the code at this commit: with_config never changes worker_threads and with_ssl_config never changes the port; every other call assigns what it promises (_partial)."},
  {"property": "C55", "status": "proved", "theorems": ["C55_one_answer", "C55_kinds_exclusive", "C55_request_unique", "C55_status_unique"], "note": "Proved in full for the model."},
  {"property": "C56", "status": "proved", "theorems": ["C56_request_bytes", "C56_end_to_end"], "note": "Proved in full for the model."},
  {"property": "C57", "status": "proved", "theorems": ["C57_no_interference", "C57_as_if_alone", "C57_own_input", "C57_no_interference_interleaved"], "note": "Proved in full for the model."},
  {"property": "C58", "status": "partial", "theorems": ["C58_refuted", "C58_no_failure_partial"], "note": "REFUTED as stated for the code at this commit: the first failed accept ends the loop, whatever comes after; without failures every connection is accepted, in order (_partial)."},
  {"property": "C59", "status": "partial", "theorems": ["C59_once_partial", "C59_before_bound_refuted", "C59_bind_failure_refuted"], "note": "REFUTED as stated for the code at this commit: exactly once is proved (_partial); it always runs before the bind, also when binding fails."},
  {"property": "C60", "status": "partial", "theorems": ["C60_body_always_sent", "C60_refuted"], "note": "REFUTED as stated for the code at this commit: concrete application; the HEAD answer carries the body bytes of GET."},
  {"property": "C61", "status": "partial", "theorems": ["C61_fields_partial", "C61_pub_refuted", "C61_comma_refuted", "C61_tuple_partial", "C61_tuple_refuted"], "note": "REFUTED as stated for the code at this commit: proved for private fields without top-level commas in their types (attributes allowed) and for tuple fields with an identifier in their type; refuted for every pub field, every type with a top-level comma, and tuple fields such as [u8; 4]."},
  {"property": "C62", "status": "proved", "theorems": ["C62_round_trip", "C62_from_exact", "C62_only_objects", "C62_order_irrelevant", "C62_to_exact", "C62_back", "C62_tuple_round_trip", "C62_tuple_from_exact", "C62_tuple_to_exact"], "note": "Proved in full for the model."},
  {"property": "C63", "status": "proved", "theorems": ["C63_main", "C63_no_body", "C63_test", "C63_determined"], "note": "Proved in full for the model."},
  {"property": "C64", "status": "partial", "theorems": ["C64_buffered_refuted", "C64_accepted_refuted"], "note": "REFUTED as stated for the code at this commit: for every n a waiting connection with more than n buffered head bytes, and an accepted request with a header of n bytes."},
  {"property": "C65", "status": "proved", "theorems": ["C65_split_lossless", "C65_crlf_split_unique"], "note": "Proved in full for the model."},
  {"property": "C66", "status": "proved", "theorems": ["C66_invariants_kept", "C66_invariants_kept_interleaved"], "note": "Proved in full for the model."},
  {"property": "C67", "status": "partial", "theorems": ["C67_declaration_partial", "C67_tuple_where_refuted", "C67_unit_struct_panics_refuted", "C67_only_structs", "C67_header", "C67_refuted"], "note": "REFUTED as stated for the code at this commit: proved for type parameters with arbitrary bounds and where clauses without commas inside angle brackets; refuted for lifetimes, const parameters, such commas, Fn(..) bounds, tuple-struct where clauses and unit structs."},
  {"property": "C68", "status": "proved", "theorems": ["C68_history", "C68_length", "C68_no_panic", "C68_idempotent"], "note": "Proved in full for the model."},
  {"property": "C69", "status": "proved", "theorems": ["C69_send_file", "C69_no_panic"], "note": "Proved in full for the model; that no byte of the file is transmitted is C44."},
  {"property": "C70", "status": "proved", "theorems": ["C70_cookie_lines", "C70_in_order_of_calls"], "note": "The missing empty line after the cookies is C39."},
  {"property": "C71", "status": "proved", "theorems": ["C71_interleaving", "C71_alone"], "note": "Proved in full for the model."},
  {"property": "C72", "status": "proved", "theorems": ["C72_finishes"], "note": "Proved in full for the model."},
  {"property": "C73", "status": "proved", "theorems": ["C73_delivered", "C73_prefix"], "note": "The write side is modelled as accepted prefixes and errors; TCP below the socket is not."},
  {"property": "C74", "status": "partial", "theorems": ["C74_refuted"], "note": "REFUTED as stated for the code at this commit: witness: two POST requests through two handlers that share one variable; one is answered with the other's body. Where it does hold: C131 (one handler per request), C137 (handlers that only record)."},
  {"property": "C75", "status": "proved", "theorems": ["C75_tls_cannot_disturb_plain"], "note": "Proved in full for the model."},
  {"property": "C76", "status": "proved", "theorems": ["C76_listeners_stop_only_on_accept_errors", "C76_accepted", "C76_served"], "note": "Proved in full for the model."},
  {"property": "C77", "status": "proved", "theorems": ["C77_handshake_first", "C77_failed_handshake_harmless"], "note": "Proved in full for the model."},
  {"property": "C78", "status": "partial", "theorems": ["C78_tls_set_up_reported_refuted", "C78_rustls_partial", "C78_openssl_partial", "C78_listener_partial"], "note": "REFUTED as stated for the code at this commit: with rustls a readable key file without RSA keys panics. Proved: exact conditions under which each acceptor exists (and with which key and certificates), and exact states of the TLS listener."},
  {"property": "C79", "status": "partial", "theorems": ["C79_body_lost", "C79_refuted"], "note": "REFUTED as stated for the code at this commit: witness; general statement: C80_empty_body_partial."},
  {"property": "C80", "status": "partial", "theorems": ["C80_announced_length", "C80_repeated", "C80_empty_body_partial", "C80_refuted"], "note": "REFUTED as stated for the code at this commit: witness. Proved: exactly which header lists announce a length, and that all others give an empty body."},
  {"property": "C81", "status": "partial", "theorems": ["C81_rest_ignored", "C81_refuted"], "note": "REFUTED as stated for the code at this commit: witness. Proved in general: what follows a request without body has no effect."},
  {"property": "C82", "status": "partial", "theorems": ["C82_segmentation_partial", "C82_refuted"], "note": "REFUTED as stated for the code at this commit: witness with more bytes than announced. Proved for all streams without surplus bytes (and outside the borderline band of C27). C139_same_answer covers all streams: only the bytes that came with the end of the head matter."},
  {"property": "C83", "status": "proved", "theorems": ["C83_same_meaning"], "note": "Proved in full for the model."},
  {"property": "C84", "status": "partial", "theorems": ["C84_absolute_form", "C84_refuted"], "note": "REFUTED as stated for the code at this commit: witness. Proved in general: scheme and host become the first two segments."},
  {"property": "C85", "status": "partial", "theorems": ["C85_verbatim_partial", "C85_refuted"], "note": "REFUTED as stated for the code at this commit: witness. Proved in general: path segments are target segments verbatim."},
  {"property": "C86", "status": "partial", "theorems": ["C86_body_always_sent", "C86_refuted"], "note": "REFUTED as stated for the code at this commit: witness. Proved in general: the body is sent whatever the status."},
  {"property": "C87", "status": "partial", "theorems": ["C87_names_unique_partial", "C87_refuted"], "note": "REFUTED as stated for the code at this commit: witness. Proved: unique if every name used has one spelling."},
  {"property": "C88", "status": "partial", "theorems": ["C88_refuted"], "note": "REFUTED as stated for the code at this commit: for every outcome of the system calls."},
  {"property": "C89", "status": "partial", "theorems": ["C89_not_announced", "C89_no_answer_says_so", "C89_refuted"], "note": "REFUTED as stated for the code at this commit: witness. Proved in general: no Connection header unless the application sets it."},
  {"property": "C90", "status": "partial", "theorems": ["C90_flow_partial", "C90_panic", "C90_dispatch_partial", "C90_return_refuted"], "note": "REFUTED as stated for the code at this commit: Missing: bodies that use return; for those the claim is refuted."},
  {"property": "C91", "status": "partial", "theorems": ["C91_exists", "C91_concat_partial", "C91_workspace_refuted", "C91_escape_refuted"], "note": "REFUTED as stated for the code at this commit: Existence is proved for all inputs. The equation with concat! is proved for literals without escapes and a compiler run in the manifest directory, and refuted otherwise."},
  {"property": "C92", "status": "proved", "theorems": ["C92_defaults"], "note": "Proved in full for the model."},
  {"property": "C93", "status": "proved", "theorems": ["C93_start", "C93_tls", "C93_started"], "note": "Proved in full for the model."},
  {"property": "C94", "status": "proved", "theorems": ["C94_message"], "note": "The operating system's text is a parameter."},
  {"property": "C95", "status": "partial", "theorems": ["C95_workers_partial", "C95_workers_refuted"], "note": "REFUTED as stated for the code at this commit: Proved: the number is exactly twice the CPUs seen when the attribute is expanded. Refuted for the machine that runs the program."},
  {"property": "C96", "status": "partial", "theorems": ["C96_main_partial", "C96_test_partial", "C96_expansion", "C96_timers_refuted"], "note": "REFUTED as stated for the code at this commit: Proved: kind of runtime and sockets. Refuted: timers. That tokio's timers panic on a runtime without them is taken from tokio."},
  {"property": "C97", "status": "proved", "theorems": ["C97_only_applicable_registrations_matter", "C97_unrelated_registration", "C97_swapped_registrations"], "note": "For connections; any handlers and any applications within the index range."},
  {"property": "C98", "status": "proved", "theorems": ["C98_hash_order", "C98_clients_read_the_same", "C98_hash_order_server"], "note": "For one connection and for any interleaving of connections."},
  {"property": "C99", "status": "proved", "theorems": ["C99_variables_are_safe_segments", "C99_joined_path_stays_below"], "note": "Stated as: handlers that agree on safe variables cannot be told apart by any connection. Percent-encoded text is not decoded by the server (C85); a handler that decodes it is outside the claim."},
  {"property": "C100", "status": "partial", "theorems": ["C100_refuted"], "note": "REFUTED as stated for the code at this commit: Refuted: configurations that agree on the TLS settings start the same server."},
  {"property": "C101", "status": "partial", "theorems": ["C101_refuted", "C101_not_implemented_refuted", "C101_no_host_refuted", "C101_not_found_partial"], "note": "REFUTED as stated for the code at this commit: Refuted for every stream answered with 400 as unreadable and every request answered with 501."},
  {"property": "C102", "status": "partial", "theorems": ["C102_refuted"], "note": "REFUTED as stated for the code at this commit: Refuted for all applications whose handlers set no body: they are answered like an application without handlers."},
  {"property": "C103", "status": "partial", "theorems": ["C103_refuted"], "note": "REFUTED as stated for the code at this commit: Refuted for every head, whatever its headers."},
  {"property": "C104", "status": "partial", "theorems": ["C104_refuted", "C104_quadratic_partial", "C104_reads_partial", "C104_counts_the_reader"], "note": "REFUTED as stated for the code at this commit: Work is counted in comparisons of find_in_slice. Refuted for linear bounds; proved: the bound 4 n^2, and 4 n for each read that the segments need (a head that comes in one read takes linear work). The counting reader is proved to compute what the uncounted one computes."},
  {"property": "C105", "status": "partial", "theorems": ["C105_exact_partial", "C105_after_send_partial", "C105_refuted"], "note": "REFUTED as stated for the code at this commit: refuted: headers_sent is true after a mere set; proved: after any calls it is true exactly if one of them set a header, in particular after send"},
  {"property": "C106", "status": "partial", "theorems": ["C106_refuted", "C106_items_partial", "C106_escaped_names_refuted", "C106_accessors"], "note": "REFUTED as stated for the code at this commit: refuted: the first parameter is missing under its name; proved: what is returned instead, item by item; accessors exact"},
  {"property": "C107", "status": "proved", "theorems": ["C107_answered_under_every_fair_schedule", "C107_no_crash"], "note": "proved over the task model of C71; the schedule is arbitrary apart from giving the connection more turns than there are registrations"},
  {"property": "C108", "status": "partial", "theorems": ["C108_refuted"], "note": "REFUTED as stated for the code at this commit: refuted for all requests of another version"},
  {"property": "C109", "status": "partial", "theorems": ["C109_refuted"], "note": "REFUTED as stated for the code at this commit: refuted for all requests with two Host lines"},
  {"property": "C110", "status": "partial", "theorems": ["C110_refuted"], "note": "REFUTED as stated for the code at this commit: refuted: no event other than input from the client changes a reading task"},
  {"property": "C111", "status": "proved", "theorems": ["C111_default_answer", "C111_sends", "C111_length"], "note": "wire text, equality with new_empty after send, announced length"},
  {"property": "C112", "status": "partial", "theorems": ["C112_name_read_partial", "C112_refuted", "C112_exact_partial", "C112_distinct", "C112_any_name_partial", "C112_any_distinct", "C112_any_same", "C112_written"], "note": "REFUTED as stated for the code at this commit: refuted: a tab in the name is read as the letter t; proved for all UTF-8 names exactly which ones are read back (those of visible ASCII characters, spaces and printable characters beyond ASCII), and that distinct names give distinct headers"},
  {"property": "C113", "status": "partial", "theorems": ["C113_refuted", "C113_reserved_at_once", "C113_bound_partial", "C113_nothing_before_the_head", "C113_counts_the_reader"], "note": "REFUTED as stated for the code at this commit: refuted by short heads announcing any length; proved: the bound in terms of the announced length, nothing before the head, and that the counting reader computes the same result"},
  {"property": "C114", "status": "proved", "theorems": ["C114_order", "C114_unused_headers"], "note": "relational proof over serve for arbitrary handlers that depend on headers through lookups"},
  {"property": "C115", "status": "proved", "theorems": ["C115_from_json", "C115_to_json", "C115_round_trip", "C115_tuple_from_json", "C115_tuple_to_json", "C115_tuple_round_trip", "C115_index_names", "C115_others", "C115_public_fields", "C115_comma_types", "C115_text", "C115_readable", "C115_text_others", "C115_no_body"], "note": "the generated tokens are parsed and evaluated by a small independent model of Rust (Spec/RustLang.v)"},
  {"property": "C116", "status": "proved", "theorems": ["C116_expansion", "C116_rejects_number", "C116_rejects_phrase", "C116_table"], "note": "the expansion, with the texts it parses, is read as an enum declaration and a match by Spec/EnumLang.v"},
  {"property": "C117", "status": "proved", "theorems": ["C117_below_base"], "note": "against an independent model of how Unix follows a path text (Spec/FsSpec.v)"},
  {"property": "C118", "status": "partial", "theorems": ["C118_to_std_refuted", "C118_to_std_partial", "C118_from"], "note": "REFUTED as stated for the code at this commit: refuted for to_std_pathbuf for every file; exact for both conversions"},
  {"property": "C119", "status": "proved", "theorems": ["C119_exchange", "C119_one_history", "C119_refused_requests", "C119_stateless"], "note": "end to end, from the bytes the client writes to what it reads back, at the grain of single handler calls and partial writes"},
  {"property": "C120", "status": "proved", "theorems": ["C120_work_is_shared_segments", "C120_bounded_by_registrations", "C120_counts_the_dispatcher"], "note": "counts dfs calls and their depth, segment comparisons of check_matches and the loop over the match vectors; the counted functions are proved to compute what the others do; sort_by_key and hashing are not counted"},
  {"property": "C121", "status": "partial", "theorems": ["C121_refuted", "C121_quadratic_partial", "C121_exact_partial", "C121_few_repeats_partial", "C121_counts_the_reader"], "note": "REFUTED as stated for the code at this commit: false: quadratic; the quadratic upper bound is proved, and a linear one for blocks where no name occurs more than k times. Counts the bytes written by format! and to_owned for values, not hashing and allocation"},
  {"property": "C122", "status": "partial", "theorems": ["C122_below_base_refuted", "C122_below_base_partial"], "note": "REFUTED as stated for the code at this commit: false: a segment may hold a drive or backslashes; proved for paths without backslashes and colons. Base directories on network shares are not modelled"},
  {"property": "C123", "status": "proved", "theorems": ["C123_watching_handlers_change_nothing"], "note": "watching middleware and routes, directly registered or mounted"},
  {"property": "C124", "status": "proved", "theorems": ["C124_refused_alike", "C124_not_found_alike"], "note": "400, 501 and 404 answers; requests whose handlers panic get no answer at all"},
  {"property": "C125", "status": "partial", "theorems": ["C125_refuted", "C125_without_cookies_partial"], "note": "REFUTED as stated for the code at this commit: false with cookies, for every choice of forged headers; proved without cookies"},
  {"property": "C126", "status": "proved", "theorems": ["C126_no_task_outlives_its_peer"], "note": "peers that neither send nor close keep their task for ever (C110)"},
  {"property": "C127", "status": "proved", "theorems": ["C127_nothing_behind_the_guard", "C127_guarded_invariant"], "note": "a guard protects only what is registered after it (C127_late_guard); the guard's decision must not depend on shared state in the invariant theorem"},
  {"property": "C128", "status": "proved", "theorems": ["C128_program", "C128_refused_requests", "C128_only_opened"], "note": "TLS connections at the level of the decrypted stream; handlers of the request itself must not panic and must keep responses presentable (as in C119)"},
  {"property": "C129", "status": "partial", "theorems": ["C129_accept_error_spares_connections_refuted", "C129_everything_stops"], "note": "REFUTED as stated for the code at this commit: refuted as stated with a witness; C129_everything_stops says exactly what happens, C128_program that nothing is lost before"},
  {"property": "C130", "status": "proved", "theorems": ["C130_round_trip", "C130_extended", "C130_requests", "C130_ascii"], "note": "the first and the last item of a request are distorted by C35; non-ASCII text by C32"},
  {"property": "C131", "status": "proved", "theorems": ["C131_serial", "C131_one_registration"], "note": "C74 shows that two handlers using the state are not enough; a handler call is one step, as in C71"},
  {"property": "C132", "status": "partial", "theorems": ["C132_slow_handlers_refuted", "C132_stands_still", "C132_at_most", "C132_room_partial", "C132_goes_on_partial"], "note": "REFUTED as stated for the code at this commit: Closures are plain functions run on the worker thread. Refuted for every number of threads: that many requests in handlers that do not return stop every other connection. Proved: at most n requests are handled at a time, with a thread left every connection can go on, and if handlers return all threads become free"},
  {"property": "C133", "status": "proved", "theorems": ["C133_eventually", "C133_threads_free"], "note": "that the task runs on is a hypothesis; C132 says when the threads allow it"},
  {"property": "C134", "status": "partial", "theorems": ["C134_refuted", "C134_answered_404"], "note": "REFUTED as stated for the code at this commit: Refuted: the router only says whether the response has a body, the server knows 404 alone. Proved for every application: a request nothing applies to is answered with 404 and changes no state"},
  {"property": "C135", "status": "partial", "theorems": ["C135_refuted", "C135_registered_alike"], "note": "REFUTED as stated for the code at this commit: Refuted: a route registered with get() serves GET only, HEAD gets 404. Proved: if the same is registered for both methods (add_route, add, or both verbs in the same places) the answers are equal"},
  {"property": "C136", "status": "partial", "theorems": ["C136_refuted", "C136_runs_for_all", "C136_routes_only"], "note": "REFUTED as stated for the code at this commit: Refuted: append() moves the router's middlewares into the list of the application, so a guard added to a mounted router guards the whole application. Proved: such a handler is in the chain of every request; a router with routes only changes nothing elsewhere"},
  {"property": "C137", "status": "proved", "theorems": ["C137_any_schedule"], "note": "Proved by a quantity that no step of a task changes: the shared state with all pending changes applied. An example with two handlers that pass a value through the shared state shows that the hypothesis is needed"},
  {"property": "C138", "status": "proved", "theorems": ["C138_in_the_end", "C138_client_served"], "note": "Proved by composing C133 with the listeners and handshakes of Whole.v: the events a task hears form an execution of Tasks.v"},
  {"property": "C139", "status": "proved", "theorems": ["C139_arrival", "C139_same_answer", "C139_body", "C139_panics", "C139_any_arrival"], "note": "Exact version of what C19, C27 and C82 leave open about segmentation. Any choice of fewer than 512 bytes can occur (C139_any_arrival)"},
  {"property": "C140", "status": "proved", "theorems": ["C140_programs", "C140_connection", "C140_only_those", "C140_respelled"], "note": "C97 is the case of one connection and identical registrations. Handlers that depend on the iteration order of the variable map are excluded (looks_up)"},
  {"property": "C141", "status": "proved", "theorems": ["C141_order", "C141_text", "C141_same_date", "C141_has_date"], "note": "Holds although the text is malformed in September (C49)"},
  {"property": "C142", "status": "proved", "theorems": ["C142_same_answer", "C142_any_connection", "C142_programs", "C142_laxer_accepts"], "note": "For whole programs, any schedule: C142_programs. That the conditions are needed is shown by three requests (C142_needed)"},
  {"property": "C143", "status": "partial", "theorems": ["C143_refuted", "C143_nothing_left_partial", "C143_exact_partial", "C143_refused_partial", "C143_no_head_partial", "C143_is_the_reader"], "note": "REFUTED as stated for the code at this commit: refuted: whatever follows a request in a segment of its own is left unread (C143_refuted). Proved: exactly how much is left in each case. The reset itself is the system's and not modelled"},
  {"property": "C144", "status": "partial", "theorems": ["C144_refuted", "C144_otherwise_partial"], "note": "REFUTED as stated for the code at this commit: refuted for every limit: n+1 silent clients end the program for good, once the caller of listen returns with the error it got. Proved: nothing else clients do ends it or its plain listener; n connections must be held at some time. The limit stands for file descriptors; those used for anything but connections are not counted"},
  {"property": "C145", "status": "partial", "theorems": ["C145_refuted", "C145_paths", "C145_exact_partial", "C145_called_partial", "C145_never_partial"], "note": "REFUTED as stated for the code at this commit: refuted: /a b is accepted and never reached (request lines are split at spaces, and %20 is not decoded). Proved: exactly which methods and paths requests can have; a route is reached by some request exactly if its fixed segments have no space and no CR LF and, without url_variables, no segment starts with a colon; then it is reached with every path that can be sent and matches, with the right variables; every other route may as well be left out"},
  {"property": "C146", "status": "partial", "theorems": ["C146_refuted", "C146_turns_partial", "C146_listed", "C146_one_list"], "note": "REFUTED as stated for the code at this commit: index usize::MAX makes Router::run panic for all handlers that let the request pass; with all other indices the order of calls is proved (routes of one table with equal indices: any order)"},
  {"property": "C147", "status": "partial", "theorems": ["C147_refuted", "C147_length_partial", "C147_history", "C147_announced", "C147_type", "C147_default_type", "C147_no_panic"], "note": "REFUTED as stated for the code at this commit: an assigned content_len is announced by the next default_headers, for every body and every number; histories of calls and assignments are characterised exactly otherwise"},
  {"property": "C148", "status": "partial", "theorems": ["C148_refuted", "C148_lenient_refuted", "C148_texts_partial", "C148_copied_partial", "C148_round_trip"], "note": "REFUTED as stated for the code at this commit: a decoded parameter may contain CR LF, which is written as it is; undecoded texts of the request never do, and C148_copied_partial shows that they are read back as one value"},
  {"property": "C149", "status": "proved", "theorems": ["C149_request", "C149_variables", "C149_query", "C149_extended_query", "C149_decoding"], "note": "sizes are measured through lookups only (any list of distinct entries that the map returns)"},
  {"property": "C150", "status": "proved", "theorems": ["C150_request", "C150_query", "C150_extended_query", "C150_decoding", "C150_counts_the_functions"], "note": "hash collisions and the growth of vectors and maps are not counted; C121 shows that reading the headers is not linear"},
  {"property": "C151", "status": "proved", "theorems": ["C151_splitting", "C151_counts_the_iterator"], "note": "comparisons are counted as in C104, where searching the same data again after every read makes the work quadratic"},
  {"property": "C152", "status": "proved", "theorems": ["C152_request_line", "C152_path", "C152_counts_the_functions"], "note": "the bound of a path is reached (C152_example)"},
  {"property": "C153", "status": "proved", "theorems": ["C153_writing", "C153_size", "C153_counts_the_functions"], "note": "Proved in full for the model; the growth of strings and the work of the cookie library are not counted."}
]}
