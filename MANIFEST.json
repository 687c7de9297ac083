{
 "claims": [
  {
   "property": "C01",
   "status": "proved",
   "theorems": [
    "C01_metadata_authentic"
   ],
   "note": "SHA-1 is the real function, implemented in Gallina and checked on test vectors."
  },
  {
   "property": "C02",
   "status": "proved",
   "theorems": [
    "C02_requests_sequential"
   ],
   "note": ""
  },
  {
   "property": "C03",
   "status": "proved",
   "theorems": [
    "C03_answering_peer_suffices",
    "C03_honest_peer_suffices"
   ],
   "note": ""
  },
  {
   "property": "C04",
   "status": "proved",
   "theorems": [
    "C04_cap_before_requests",
    "C04_buffer_bounded"
   ],
   "note": ""
  },
  {
   "property": "C05",
   "status": "proved",
   "theorems": [
    "C05_assembly_total_and_verified"
   ],
   "note": ""
  },
  {
   "property": "C06",
   "status": "proved",
   "theorems": [
    "C06_name_never_panics"
   ],
   "note": ""
  },
  {
   "property": "C07",
   "status": "proved",
   "theorems": [
    "C07_dict_check_exact"
   ],
   "note": ""
  },
  {
   "property": "C08",
   "status": "proved",
   "theorems": [
    "C08_file_embeds_metadata",
    "C08_metadata_verbatim",
    "C08_file_readable"
   ],
   "note": ""
  },
  {
   "property": "C09",
   "status": "proved",
   "theorems": [
    "C09_order_kept"
   ],
   "note": ""
  },
  {
   "property": "C10",
   "status": "proved",
   "theorems": [
    "C10_template_meaning",
    "C10_destination"
   ],
   "note": ""
  },
  {
   "property": "C11",
   "status": "proved",
   "theorems": [
    "C11_escaping_lossless"
   ],
   "note": ""
  },
  {
   "property": "C12",
   "status": "proved",
   "theorems": [
    "C12_hash_paths_differ"
   ],
   "note": ""
  },
  {
   "property": "C13",
   "status": "proved",
   "theorems": [
    "C13_names_sanitized"
   ],
   "note": ""
  },
  {
   "property": "C14",
   "status": "partial",
   "theorems": [
    "C14_name_redirects_refuted",
    "C14_name_stays_in_directory_partial",
    "C14_plain_template_stays_partial"
   ],
   "note": "False as stated (refuted with witnesses: name '..' under out/{name}/x.torrent, name '-' under {name}); proved when {name} occurs only in a last component that has another character."
  },
  {
   "property": "C15",
   "status": "partial",
   "theorems": [
    "C15_overwrite_refuted",
    "C15_distinct_paths_all_saved_partial"
   ],
   "note": "False as stated (refuted: default template, same name); proved for pairwise different paths, every interleaving of writes."
  },
  {
   "property": "C16",
   "status": "partial",
   "theorems": [
    "C16_crash_atomic_refuted",
    "C16_crash_states_partial"
   ],
   "note": "False as stated (refuted: crash after truncation); proved: old contents or a prefix of the new, nothing else touched."
  },
  {
   "property": "C17",
   "status": "proved",
   "theorems": [
    "C17_print_then_parse"
   ],
   "note": ""
  },
  {
   "property": "C18",
   "status": "proved",
   "theorems": [
    "C18_accepts_exactly"
   ],
   "note": ""
  },
  {
   "property": "C19",
   "status": "proved",
   "theorems": [
    "C19_same_number"
   ],
   "note": ""
  },
  {
   "property": "C20",
   "status": "proved",
   "theorems": [
    "C20_magnet_fields",
    "C20_accepted"
   ],
   "note": ""
  },
  {
   "property": "C21",
   "status": "proved",
   "theorems": [
    "C21_magnets_file",
    "C21_lines_exist"
   ],
   "note": ""
  },
  {
   "property": "C22",
   "status": "proved",
   "theorems": [
    "C22_query_values_round_trip",
    "C22_every_query_has_one_reading",
    "C22_values_encoded_safely"
   ],
   "note": ""
  },
  {
   "property": "C23",
   "status": "proved",
   "theorems": [
    "C23_big_endian_reads",
    "C23_signed_reads"
   ],
   "note": ""
  },
  {
   "property": "C24",
   "status": "proved",
   "theorems": [
    "C24_compact_addresses"
   ],
   "note": ""
  },
  {
   "property": "C25",
   "status": "proved",
   "theorems": [
    "C25_compact_v4_lists",
    "C25_compact_v6_lists"
   ],
   "note": ""
  },
  {
   "property": "C26",
   "status": "proved",
   "theorems": [
    "C26_handshake_bijection"
   ],
   "note": ""
  },
  {
   "property": "C27",
   "status": "proved",
   "theorems": [
    "C27_negotiation_is_intersection"
   ],
   "note": ""
  },
  {
   "property": "C28",
   "status": "proved",
   "theorems": [
    "C28_core_messages",
    "C28_all_messages"
   ],
   "note": ""
  },
  {
   "property": "C29",
   "status": "proved",
   "theorems": [
    "C29_segmentation_independent",
    "C29_frames_unique",
    "C29_received_is_sent",
    "C29_encoding"
   ],
   "note": ""
  },
  {
   "property": "C30",
   "status": "proved",
   "theorems": [
    "C30_decodes_exactly",
    "C30_roundtrip"
   ],
   "note": ""
  },
  {
   "property": "C31",
   "status": "proved",
   "theorems": [
    "C31_decodes_exactly",
    "C31_roundtrip"
   ],
   "note": ""
  },
  {
   "property": "C32",
   "status": "proved",
   "theorems": [
    "C32_inverse_maps",
    "C32_from_dictionary",
    "C32_zero_refused",
    "C32_unknown_ignored"
   ],
   "note": ""
  },
  {
   "property": "C33",
   "status": "proved",
   "theorems": [
    "C33_connect_request",
    "C33_announce_request"
   ],
   "note": ""
  },
  {
   "property": "C34",
   "status": "proved",
   "theorems": [
    "C34_connect_response",
    "C34_announce_response"
   ],
   "note": ""
  },
  {
   "property": "C35",
   "status": "proved",
   "theorems": [
    "C35_query_wire",
    "C35_query_recovered"
   ],
   "note": ""
  },
  {
   "property": "C36",
   "status": "proved",
   "theorems": [
    "C36_response",
    "C36_error",
    "C36_query",
    "C36_prescan"
   ],
   "note": ""
  },
  {
   "property": "C37",
   "status": "proved",
   "theorems": [
    "C37_responses_exact"
   ],
   "note": ""
  },
  {
   "property": "C38",
   "status": "proved",
   "theorems": [
    "C38_announce_url",
    "C38_distinct_announcements"
   ],
   "note": ""
  },
  {
   "property": "C39",
   "status": "proved",
   "theorems": [
    "C39_ascii",
    "C39_parses",
    "C39_text_id",
    "C39_strings"
   ],
   "note": ""
  },
  {
   "property": "C40",
   "status": "proved",
   "theorems": [
    "C40_required_never_plain"
   ],
   "note": ""
  },
  {
   "property": "C41",
   "status": "proved",
   "theorems": [
    "C41_fetch",
    "C41_fetch_writes",
    "C41_preference_honoured",
    "C41_result"
   ],
   "note": ""
  },
  {
   "property": "C42",
   "status": "partial",
   "theorems": [
    "C42_refuted",
    "C42_stall",
    "C42_failure_partial",
    "C42_silent_partial",
    "C42_unreachable_partial"
   ],
   "note": "False as stated (refuted: a peer that sends its public key and then nothing keeps the handshake waiting; the whole attempt times out and no unencrypted attempt is made); proved: a handshake failing within the connection's time limit, in particular a silent peer when the key-exchange timeout fits in it, is followed by an unencrypted attempt."
  },
  {
   "property": "C43",
   "status": "proved",
   "theorems": [
    "C43_conforming_responder",
    "C43_same_secret"
   ],
   "note": ""
  },
  {
   "property": "C44",
   "status": "proved",
   "theorems": [
    "C44_segmentation_independent",
    "C44_pieces"
   ],
   "note": ""
  },
  {
   "property": "C45",
   "status": "proved",
   "theorems": [
    "C45_transparent",
    "C45_no_false_end",
    "C45_flush"
   ],
   "note": ""
  },
  {
   "property": "C46",
   "status": "proved",
   "theorems": [
    "C46_established",
    "C46_refused",
    "C46_key_packet",
    "C46_closed_early",
    "C46_closed_late"
   ],
   "note": ""
  },
  {
   "property": "C47",
   "status": "proved",
   "theorems": [
    "C47_replies_match",
    "C47_matching_accepted"
   ],
   "note": ""
  },
  {
   "property": "C48",
   "status": "partial",
   "theorems": [
    "C48_unrelated_datagrams_refuted",
    "C48_late_duplicate_refuted",
    "C48_mismatch_named_partial"
   ],
   "note": "False as stated (refuted: an error packet, action 3, is accepted whatever its transaction id, src/tracker/udp.rs Response::from_bytes; and the answer to the second copy of a connect request sent twice makes the announcement fail); proved: success-shaped replies with another transaction id are reported as a mismatch naming both ids."
  },
  {
   "property": "C49",
   "status": "proved",
   "theorems": [
    "C49_retransmission",
    "C49_waits"
   ],
   "note": ""
  },
  {
   "property": "C50",
   "status": "proved",
   "theorems": [
    "C50_fresh_connection_ids",
    "C50_reused",
    "C50_kept"
   ],
   "note": "Stated with an explicit bound on the lateness of timers (slack); slack 0 is the ideal timer."
  },
  {
   "property": "C51",
   "status": "proved",
   "theorems": [
    "C51_stop_iff_peers",
    "C51_same_identity"
   ],
   "note": ""
  },
  {
   "property": "C52",
   "status": "proved",
   "theorems": [
    "C52_magnet",
    "C52_batch",
    "C52_get",
    "C52_batch_cmd",
    "C52_batch_writes",
    "C52_concurrency_limit"
   ],
   "note": ""
  },
  {
   "property": "C53",
   "status": "proved",
   "theorems": [
    "C53_at_most_once",
    "C53_exactly_once"
   ],
   "note": ""
  },
  {
   "property": "C54",
   "status": "proved",
   "theorems": [
    "C54_end_only_when_closed",
    "C54_no_deadlock",
    "C54_no_deadlock_open",
    "C54_terminates"
   ],
   "note": ""
  },
  {
   "property": "C55",
   "status": "proved",
   "theorems": [
    "C55_closed",
    "C55_shutdown"
   ],
   "note": ""
  },
  {
   "property": "C56",
   "status": "proved",
   "theorems": [
    "C56_prefix",
    "C56_complete",
    "C56_ends"
   ],
   "note": ""
  },
  {
   "property": "C57",
   "status": "proved",
   "theorems": [
    "C57_none_left",
    "C57_returns_by_joining",
    "C57_patient",
    "C57_cancels",
    "C57_returns"
   ],
   "note": ""
  },
  {
   "property": "C58",
   "status": "proved",
   "theorems": [
    "C58_success",
    "C58_failure",
    "C58_contacts",
    "C58_once",
    "C58_no_deadlock",
    "C58_terminates"
   ],
   "note": ""
  },
  {
   "property": "C59",
   "status": "partial",
   "theorems": [
    "C59_refuted",
    "C59_panic_partial"
   ],
   "note": "False as stated (refuted: peer_job's expect() panics if it submits a peer right after the main task got its result and dropped the pool); proved: if no job panics the main task never does, and peer_job only after the result was returned."
  },
  {
   "property": "C60",
   "status": "proved",
   "theorems": [
    "C60_truthful",
    "C60_no_deadlock",
    "C60_terminates"
   ],
   "note": ""
  },
  {
   "property": "C61",
   "status": "proved",
   "theorems": [
    "C61_unsolicited"
   ],
   "note": ""
  },
  {
   "property": "C62",
   "status": "proved",
   "theorems": [
    "C62_answered_or_waiting",
    "C62_at_most_once",
    "C62_all_answered",
    "C62_timers_run_out",
    "C62_timers_suffice"
   ],
   "note": "For histories of at most 2^32 queries (no transaction id reused); 'never twice' for all. Time is not modelled: a timer's firing is an event that is always possible."
  },
  {
   "property": "C63",
   "status": "proved",
   "theorems": [
    "C63_no_repeats"
   ],
   "note": ""
  },
  {
   "property": "C64",
   "status": "partial",
   "theorems": [
    "C64_order",
    "C64_closest_ids_partial",
    "C64_closest_partial",
    "C64_refuted"
   ],
   "note": "False as stated (refuted: of two nodes with the same id and different addresses the one that did not respond is reported in place of the one that did; src/dht/actor.rs mark_responsive looks up by id); proved: order, number, distinctness; the set of ids; and the full statement if the known nodes' ids are distinct."
  },
  {
   "property": "C65",
   "status": "partial",
   "theorems": [
    "C65_responded_partial",
    "C65_refuted"
   ],
   "note": "False as stated (refuted by the same history: an address is reported that never sent anything); proved if the known nodes' ids are distinct."
  },
  {
   "property": "C66",
   "status": "proved",
   "theorems": [
    "C66_when",
    "C66_closest"
   ],
   "note": ""
  },
  {
   "property": "C67",
   "status": "proved",
   "theorems": [
    "C67_peers",
    "C67_own_queries"
   ],
   "note": ""
  },
  {
   "property": "C68",
   "status": "proved",
   "theorems": [
    "C68_distinct",
    "C68_length"
   ],
   "note": ""
  },
  {
   "property": "C69",
   "status": "proved",
   "theorems": [
    "C69_finite",
    "C69_known"
   ],
   "note": ""
  },
  {
   "property": "C70",
   "status": "proved",
   "theorems": [
    "C70_bound",
    "C70_not_small"
   ],
   "note": "The provable bound is useless in practice: nodes that each report one node with id equal to the target keep a lookup going for 2^32 queries (C70_not_small)."
  },
  {
   "property": "C71",
   "status": "proved",
   "theorems": [
    "C71_accepted",
    "C71_usable",
    "C71_every_port"
   ],
   "note": ""
  },
  {
   "property": "C72",
   "status": "proved",
   "theorems": [
    "C72_no_config",
    "C72_explicit",
    "C72_default",
    "C72_no_home"
   ],
   "note": ""
  },
  {
   "property": "C73",
   "status": "partial",
   "theorems": [
    "C73_refuted",
    "C73_exactly_partial"
   ],
   "note": "False as stated (refuted: dh-exchange-timeout = 9223372036854775807 is accepted and the handshake panics on Instant + Duration overflow); proved: it panics exactly if the deadline exceeds the clock's range."
  },
  {
   "property": "C74",
   "status": "proved",
   "theorems": [
    "C74_generated_peer_ids"
   ],
   "note": ""
  },
  {
   "property": "C75",
   "status": "proved",
   "theorems": [
    "C75_creation_date_total"
   ],
   "note": ""
  },
  {
   "property": "C76",
   "status": "partial",
   "theorems": [
    "C76_no_limit_refuted",
    "C76_progress_partial"
   ],
   "note": "False as stated (refuted: any number of keep-alives, then silence, is waited for: src/peer/mod.rs:207 has no timeout around get_metadata_info); proved: at most 1280 requests, data messages bounded."
  },
  {
   "property": "C77",
   "status": "partial",
   "theorems": [
    "C77_hash_paths_same_file_refuted",
    "C77_hash_last_distinct_partial"
   ],
   "note": "False as stated (refuted: {hash}/{name}/x with name '..'); proved when {hash} is in the last component."
  },
  {
   "property": "C78",
   "status": "proved",
   "theorems": [
    "C78_never_panics_and_authentic",
    "C78_segmentation_independent",
    "C78_ended_stream_ends"
   ],
   "note": ""
  },
  {
   "property": "C79",
   "status": "proved",
   "theorems": [
    "C79_honest_bytes_suffice",
    "C79_exactly"
   ],
   "note": ""
  },
  {
   "property": "C80",
   "status": "proved",
   "theorems": [
    "C80_bytes_sent"
   ],
   "note": ""
  },
  {
   "property": "C81",
   "status": "proved",
   "theorems": [
    "C81_udp_url"
   ],
   "note": ""
  },
  {
   "property": "C82",
   "status": "proved",
   "theorems": [
    "C82_tracker_urls",
    "C82_supported"
   ],
   "note": ""
  },
  {
   "property": "C83",
   "status": "proved",
   "theorems": [
    "C83_settings",
    "C83_bootstrap"
   ],
   "note": ""
  },
  {
   "property": "C84",
   "status": "proved",
   "theorems": [
    "C84_same_exchange"
   ],
   "note": ""
  },
  {
   "property": "C85",
   "status": "proved",
   "theorems": [
    "C85_queries"
   ],
   "note": ""
  },
  {
   "property": "C86",
   "status": "proved",
   "theorems": [
    "C86_tracker_crypto"
   ],
   "note": ""
  },
  {
   "property": "C87",
   "status": "proved",
   "theorems": [
    "C87_socket"
   ],
   "note": ""
  },
  {
   "property": "C88",
   "status": "proved",
   "theorems": [
    "C88_accepted",
    "C88_printed"
   ],
   "note": ""
  },
  {
   "property": "C89",
   "status": "proved",
   "theorems": [
    "C89_udp_url_written"
   ],
   "note": ""
  },
  {
   "property": "C90",
   "status": "proved",
   "theorems": [
    "C90_characters",
    "C90_text"
   ],
   "note": ""
  },
  {
   "property": "C91",
   "status": "proved",
   "theorems": [
    "C91_accepted",
    "C91_shown_is_accepted",
    "C91_one_reading",
    "C91_peer"
   ],
   "note": ""
  },
  {
   "property": "C92",
   "status": "proved",
   "theorems": [
    "C92_authentic",
    "C92_panics",
    "C92_plain",
    "C92_encrypted",
    "C92_fallback",
    "C92_exactly",
    "C92_conforming_accepted",
    "C92_refused",
    "C92_connect_timeout"
   ],
   "note": ""
  },
  {
   "property": "C93",
   "status": "proved",
   "theorems": [
    "C93_success",
    "C93_failure",
    "C93_source",
    "C93_verdict",
    "C93_save_failure",
    "C93_no_panic"
   ],
   "note": "Composition of the models of the tasks, one peer, the torrent file and saving. What trackers and the DHT yield is a parameter (their own behaviour: C47-C51, C60-C72). Panics inside dependencies are not modelled. Writes to a peer may fail or never end, as in C106."
  },
  {
   "property": "C94",
   "status": "partial",
   "theorems": [
    "C94_resolves_partial",
    "C94_blocked_refuted"
   ],
   "note": "False as stated (refuted: peer-jobs-per-magnet peers that complete the handshake and then send nothing keep 'get' waiting for ever, src/peer/mod.rs:207 has no time limit on the exchange); proved if fewer than that many never answer. 'Eventually' = in every state in which nothing more can happen but the end of a fetch that never ends. Writes to a peer may fail or never end, as in C106."
  },
  {
   "property": "C95",
   "status": "proved",
   "theorems": [
    "C95_lines_unique",
    "C95_query_tracker",
    "C95_query_tracker_success",
    "C95_query_dht",
    "C95_query_peer_success",
    "C95_query_peer_failure",
    "C95_query_peer_flags",
    "C95_query_peer_no_panic",
    "C95_query_peer_exactly",
    "C95_query_peer_reason",
    "C95_query_tracker_answered",
    "C95_query_tracker_answers",
    "C95_query_dht_named"
   ],
   "note": "In query-peer, writes to the peer may fail or never end, as in C106."
  },
  {
   "property": "C96",
   "status": "proved",
   "theorems": [
    "C96_one_node",
    "C96_once",
    "C96_own_result",
    "C96_distinct",
    "C96_histories",
    "C96_progress",
    "C96_bounded",
    "C96_after_shutdown",
    "C96_failures"
   ],
   "note": "Built on the model of one node (C61-C70, C85), which apply to what the shared node does (C96_histories). Panics and aborts of the actor's task are not modelled."
  },
  {
   "property": "C97",
   "status": "partial",
   "theorems": [
    "C97_after_bind_failure",
    "C97_after_bootstrap_failure_refuted"
   ],
   "note": "False as stated (refuted: if none of the bootstrap nodes can be resolved when the node is created, the actor ends, but its handle is kept in App's mutex: no later lookup of the process ever sends a query; src/app.rs:38-49, src/dht/actor.rs:125-132); proved for a failure to bind the socket."
  },
  {
   "property": "C98",
   "status": "proved",
   "theorems": [
    "C98_addresses",
    "C98_reachable",
    "C98_limit",
    "C98_progress"
   ],
   "note": ""
  },
  {
   "property": "C99",
   "status": "partial",
   "theorems": [
    "C99_answered",
    "C99_answers",
    "C99_refused",
    "C99_failure",
    "C99_no_panic",
    "C99_contacts",
    "C99_resolves_partial"
   ],
   "note": "Full for the query itself; the last clause ('get' succeeds) is C94's and has its exception, hence C99_resolves_partial. reqwest is represented by what becomes of a request (no response, status and body); redirections are reqwest's."
  },
  {
   "property": "C100",
   "status": "partial",
   "theorems": [
    "C100_status",
    "C100_saved_partial",
    "C100_distinct_partial",
    "C100_hash_partial",
    "C100_lost_refuted",
    "C100_corrupt_refuted",
    "C100_ends_partial",
    "C100_starved_refuted"
   ],
   "note": "False as stated. Refuted: under the default template two torrents of the same name overwrite each other and 'batch' still exits with success (C100_lost_refuted: the first one's file is nowhere); saved at the same time they leave a file that is not bencode at all (C100_corrupt_refuted); batch-jobs links whose peers go silent keep all others from being started (C100_starved_refuted, after C94). Proved: the exit status; every succeeding job's file is complete if no other job opens the same file; all files if the paths differ, which a template with {hash} in its last component guarantees for different hashes; it ends if the jobs do."
  },
  {
   "property": "C101",
   "status": "partial",
   "theorems": [
    "C101_contacts",
    "C101_success",
    "C101_failure",
    "C101_resolves_partial",
    "C101_doomed_refuted"
   ],
   "note": "False as stated in one clause: 'it succeeds if one of the peers named serves the metadata' has C94's exception (C101_resolves_partial), and no peer is ever named once the bootstrap nodes could not be resolved (C101_doomed_refuted, after C97). The rest is proved in full."
  },
  {
   "property": "C102",
   "status": "partial",
   "theorems": [
    "C102_no_config",
    "C102_status",
    "C102_answers",
    "C102_stopped",
    "C102_once",
    "C102_at_once",
    "C102_in_time_partial",
    "C102_progress",
    "C102_bounded",
    "C102_in_time_refuted"
   ],
   "note": "False as stated in one clause (C102_in_time_refuted): ShutdownGroup::shutdown waits a second time, without a limit and without cancelling; an announcement handed over between the two waits, by a task still running on another thread while it is aborted, is waited for without limit. Proved without such answers (C102_in_time_partial). 'At once' and 'in time' are about executions in which no time passes while the process has something to do (S_Process.prompt). A panic of the command, which ends the process without a shutdown, and the runtime's own wait for blocking operations (name resolution, standard input) when it is dropped are not modelled."
  },
  {
   "property": "C103",
   "status": "proved",
   "theorems": [
    "C103_exchange",
    "C103_one_reason",
    "C103_handshake",
    "C103_fetch"
   ],
   "note": "C103_exchange and C103_handshake say both directions: the error is reported exactly if the reason holds. C103_fetch says that the error reported for a whole fetch is one of the reasons that hold. A stream closed right after the four bytes of a frame's length counts as closed between messages (S_Reason.cut_header), which is what the code reports. Errors of the operating system are one value each (connect, send, receive)."
  },
  {
   "property": "C104",
   "status": "proved",
   "theorems": [
    "C104_reason",
    "C104_one_end",
    "C104_reported",
    "C104_timeout"
   ],
   "note": "Both directions: C104_reason (what is reported is how the query ended), C104_reported and C104_timeout (how it ended is reported), C104_one_end. For HTTP the specification does not fix the percent-encoding of the request's URL, so C104_reason is about some URL that puts the announcement and the converse about all such. Errors of the operating system and of reqwest are one value each."
  },
  {
   "property": "C105",
   "status": "partial",
   "theorems": [
    "C105_frames",
    "C105_handshake_partial",
    "C105_refuted"
   ],
   "note": "False as stated for the handshake's first phase (C105_refuted): until dh-exchange-timeout everything the peer sends is appended to the input buffer, whatever its size, and its length is looked at only when the time is over. Proved for the rest of the handshake and for what it hands over (C105_handshake_partial), and for the messages (C105_frames). The metadata collected is bounded by C04_buffer_bounded. Capacities of buffers (allocated and unused) are not modelled; nor is the body of an HTTP response, which reqwest collects without a bound."
  },
  {
   "property": "C106",
   "status": "proved",
   "theorems": [
    "C106_exchange",
    "C106_handshake",
    "C106_attempt",
    "C106_prefer",
    "C106_successful",
    "C106_obtained",
    "C106_exact",
    "C106_reason",
    "C106_no_panic"
   ],
   "note": "M_Write repeats connect, get_metadata_info, the encryption handshake and run with the outcomes of the writes; C106_successful, C106_exchange and C106_handshake relate them to the model the other properties are about, in which all writes succeed. A successful write takes no time, and what part of an unsuccessful one reaches the peer is not modelled."
  },
  {
   "property": "C107",
   "status": "partial",
   "theorems": [
    "C107_query_tracker",
    "C107_query_tracker_prints",
    "C107_query_dht",
    "C107_one_end",
    "C107_stopped_refuted"
   ],
   "note": "The last part is false (C107_stopped_refuted): println! panics when standard output cannot be written (a closed pipe, a full disk), the panic ends the process without App::shutdown, and the announcement that the client has stopped is lost. The rest is proved. Standard output takes a number of bytes and then fails for good; a line may be taken in part."
  },
  {
   "property": "C108",
   "status": "proved",
   "theorems": [
    "C108_link",
    "C108_file"
   ],
   "note": "For every URL parser. Simplification: the base32 decoder may refuse a padded 32-character text for the length of what it decodes to rather than for its alphabet; the model says InvalidBase32."
  },
  {
   "property": "C109",
   "status": "partial",
   "theorems": [
    "C109_closing",
    "C109_pending_jobs",
    "C109_pending_results",
    "C109_try_recv",
    "C109_try_recv_done",
    "C109_done_partial",
    "C109_done_final",
    "C109_done_refuted"
   ],
   "note": "The last part is false (C109_done_refuted): until the workers have noticed that the input channel is closed the answer is \"empty\", not \"done\". The converse holds (C109_done_partial), and \"done\" is final."
  },
  {
   "property": "C110",
   "status": "partial",
   "theorems": [
    "C110_no_control_characters",
    "C110_saving_partial",
    "C110_saving_refuted",
    "C110_one_line_refuted"
   ],
   "note": "Proved for every record but the one naming the output file, where the name in the metadata is cleaned of C0 controls only: DEL and the C1 controls go through (C110_saving_refuted; C110_saving_partial says what holds). The text of a bendy error has several lines (C110_one_line_refuted), so that a tracker's or peer's malformed answer does break the line, though with fixed text."
  },
  {
   "property": "C111",
   "status": "partial",
   "theorems": [
    "C111_received_messages",
    "C111_messages_readable",
    "C111_handshakes",
    "C111_quoted_texts",
    "C111_peers",
    "C111_reason_kinds_partial",
    "C111_reason_kinds_refuted",
    "C111_records",
    "C111_reasons_partial",
    "C111_tracker_reasons",
    "C111_stop_reasons",
    "C111_node_reasons"
   ],
   "note": "The last part is false: a connection lost during the encryption handshake reads like one lost later (C111_reason_kinds_refuted); all other kinds are told apart by their first words (C111_reason_kinds_partial)."
  },
  {
   "property": "C112",
   "status": "proved",
   "theorems": [
    "C112_verdict",
    "C112_truth",
    "C112_complete",
    "C112_success",
    "C112_batch",
    "C112_batch_none"
   ],
   "note": "Over the concurrent models of C93 and C60. Peers are identified by their addresses where they come from trackers (M_Resolve drops duplicates)."
  },
  {
   "property": "C113",
   "status": "proved",
   "theorems": [
    "C113_bound",
    "C113_numbers",
    "C113_get",
    "C113_at_once",
    "C113_goes_on",
    "C113_ends",
    "C113_batch",
    "C113_batch_numbers",
    "C113_batch_goes_on"
   ],
   "note": "The transition system of C58 with a clock; only jobs take time, and how long each takes is arbitrary. That a tracker query is over within the announce timeout is C51; that a peer may take arbitrarily long is C76."
  },
  {
   "property": "C114",
   "status": "proved",
   "theorems": [
    "C114_soon",
    "C114_waiting",
    "C114_bound",
    "C114_bound_waiting",
    "C114_queries",
    "C114_patience",
    "C114_goes_on"
   ],
   "note": "The transition system of C61 to C70 with a clock; handling an event takes no time, and a timer that is due fires before more time passes. C70 says that there can be very many valid replies."
  },
  {
   "property": "C115",
   "status": "proved",
   "theorems": [
    "C115_faithful",
    "C115_levels",
    "C115_one_line_each",
    "C115_failures",
    "C115_get",
    "C115_batch"
   ],
   "note": "fern (which module a level is for, one line break after each record) and anstyle (the codes of the styles) as documented; without colours AutoStream also removes escape sequences from texts, so the plain form is for texts without."
  },
  {
   "property": "C116",
   "status": "proved",
   "theorems": [
    "C116_same_file",
    "C116_trackers"
   ],
   "note": "Equality of the info dictionaries is a hypothesis of the last part: that equal hashes come from equal dictionaries cannot be proved, there being collisions."
  },
  {
   "property": "C117",
   "status": "proved",
   "theorems": [
    "C117_each",
    "C117_one"
   ],
   "note": ""
  },
  {
   "property": "C118",
   "status": "proved",
   "theorems": [
    "C118_needs_ipv4",
    "C118_ipv4_only",
    "C118_sent",
    "C118_asked"
   ],
   "note": ""
  },
  {
   "property": "C119",
   "status": "proved",
   "theorems": [
    "C119_replies",
    "C119_log"
   ],
   "note": ""
  },
  {
   "property": "C120",
   "status": "proved",
   "theorems": [
    "C120_answers",
    "C120_result",
    "C120_udp"
   ],
   "note": ""
  },
  {
   "property": "C121",
   "status": "proved",
   "theorems": [
    "C121_log",
    "C121_all_received",
    "C121_blame",
    "C121_metadata_in_log",
    "C121_refusals",
    "C121_handshake",
    "C121_fallback"
   ],
   "note": ""
  }
 ]
}