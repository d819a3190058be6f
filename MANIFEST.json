{
 "claims": [
  {
   "property": "C01",
   "status": "proved",
   "theorems": [
    "C01_frame_roundtrip"
   ],
   "note": "All five frame kinds, any following bytes. Private local addresses of mappings are not on the wire (public)."
  },
  {
   "property": "C02",
   "status": "proved",
   "theorems": [
    "C02_segmentation",
    "C02_segmentation_all"
   ],
   "note": "Exact set of frames obtained at every moment, for every cut of the byte stream."
  },
  {
   "property": "C03",
   "status": "partial",
   "theorems": [
    "C03_isolation_refuted",
    "C03_isolation_partial",
    "C03_framing_partial",
    "C03_wait"
   ],
   "note": "The full property is false of the code (payload parsers see the bytes after the frame): refuted with a witness. Proved: a decodable frame is never changed by later bytes; framing is never lost; nothing is decoded early."
  },
  {
   "property": "C04",
   "status": "partial",
   "theorems": [
    "C04_decoder_total_refuted",
    "C04_decoder_total_partial"
   ],
   "note": "False of the code (unknown kind, empty create frame). Proved: the exact set of panicking buffers, i.e. every other byte string is handled."
  },
  {
   "property": "C05",
   "status": "partial",
   "theorems": [
    "C05_oversize_refuted_domain",
    "C05_oversize_refuted_data",
    "C05_oversize_refuted_close",
    "C05_oversize_partial",
    "C05_oversize_refuted_list",
    "C05_oversize_refuted_list_case"
   ],
   "note": "False of the code for domains, payloads and close reasons. Proved: overlong strings in close/token/mapping frames are reported; a failing mapping frame writes nothing."
  },
  {
   "property": "C06",
   "status": "partial",
   "theorems": [
    "C06_ids_distinct",
    "C06_ids_on_wire_refuted",
    "C06_ids_on_wire_partial"
   ],
   "note": "Distinctness proved in full; the id seen by the peer is the allocated one only for the first 2^23-1 streams (24-bit wire field), refuted beyond."
  },
  {
   "property": "C07",
   "status": "proved",
   "theorems": [
    "C07_auth_before_service",
    "C07_refusal"
   ],
   "note": "All histories of reads, writes, visitors and handlers. The check happens on the first frame decoded; anything but a fully matching token ends service."
  },
  {
   "property": "C08",
   "status": "proved",
   "theorems": [
    "C08_dispatch",
    "C08_source",
    "C08_fifo",
    "C08_isolation",
    "C08_handler_unique",
    "C08_no_loss"
   ],
   "note": "Refinement of the whole loop to the routing rule of CsSpec.v."
  },
  {
   "property": "C09",
   "status": "partial",
   "theorems": [
    "C09_close_refuted",
    "C09_mapping_partial",
    "C09_mapping_unique",
    "C09_close_sent",
    "C09_only_on_create",
    "C09_others_untouched"
   ],
   "note": "Complete except that the close for an unmapped domain is not sent when the outgoing channel is full: the loop then stands still (C50)."
  },
  {
   "property": "C10",
   "status": "proved",
   "theorems": [
    "C10_ordered",
    "C10_source",
    "C10_fifo",
    "C10_isolation"
   ],
   "note": "All histories."
  },
  {
   "property": "C11",
   "status": "partial",
   "theorems": [
    "C11_no_loss_refuted",
    "C11_loss_only_when_full_partial",
    "C11_complete_partial"
   ],
   "note": "False of the code (try_send into a channel of 10). Proved: loss only in that situation or when the handler is gone."
  },
  {
   "property": "C12",
   "status": "partial",
   "theorems": [
    "C12_prefix",
    "C12_conservation",
    "C12_after_eof_refuted"
   ],
   "note": "Prefix property proved in full; \"nothing after end of stream\" is false of the code (refuted)."
  },
  {
   "property": "C13",
   "status": "partial",
   "theorems": [
    "C13_all_before_close_refuted",
    "C13_missing_exact_partial",
    "C13_large_reads_partial"
   ],
   "note": "False of the code. Proved: exactly the buffered rest is missing; nothing is missing if every read can take a whole data frame."
  },
  {
   "property": "C14",
   "status": "partial",
   "theorems": [
    "C14_exactly_once_refuted",
    "C14_closed_hangs_refuted",
    "C14_offered_partial",
    "C14_uncongested_partial"
   ],
   "note": "False of the code under congestion (retry is duplicated). Proved: exact accounting, and exactly once without congestion."
  },
  {
   "property": "C15",
   "status": "proved",
   "theorems": [
    "C15_bridge",
    "C15_ends",
    "C15_frames_fit"
   ],
   "note": "All schedules of the select loop."
  },
  {
   "property": "C16",
   "status": "partial",
   "theorems": [
    "C16_flush_to_tunnel_refuted",
    "C16_flush_to_socket_refuted",
    "C16_lost_exact_partial"
   ],
   "note": "False of the code in both directions. Proved: exactly what is queued inside is lost."
  },
  {
   "property": "C17",
   "status": "proved",
   "theorems": [
    "C17_verdict",
    "C17_full_needs_addresses",
    "C17_zones",
    "C17_gate",
    "C17_zero_refuted",
    "C17_large_burst_refuted",
    "C17_unknown_zone",
    "C17_middleware"
   ],
   "note": "All histories with a non-decreasing clock, for n >= 1 and n + burst below 2^64; for n = 0 the first request is let through (C17_zero_refuted), and with a larger burst everything beyond n is refused (C17_large_burst_refuted)."
  },
  {
   "property": "C18",
   "status": "partial",
   "theorems": [
    "C18_recovers_refuted",
    "C18_steady_refused",
    "C18_recovers_after_pause_partial"
   ],
   "note": "False of the code: a client sending at exactly the configured rate is refused for ever. Proved: a pause longer than the period restores service."
  },
  {
   "property": "C19",
   "status": "partial",
   "theorems": [
    "C19_lockout_refuted",
    "C19_below_limit_partial"
   ],
   "note": "False of the code: a full zone refuses every client, known ones too. Proved: below the limit each client is judged by its own count."
  },
  {
   "property": "C20",
   "status": "proved",
   "theorems": [
    "C20_health",
    "C20_isolation",
    "C20_max_one_refuted"
   ],
   "note": "All histories, for thresholds max >= 2 (the code uses 3) and min >= 1; with max = 1 the first failure is not counted (C20_max_one_refuted)."
  },
  {
   "property": "C21",
   "status": "partial",
   "theorems": [
    "C21_member",
    "C21_live_partial",
    "C21_live_refuted",
    "C21_nobody",
    "C21_zero_weight_panics"
   ],
   "note": "Membership proved. The live-member part is false of the code when the group thresholds differ from the process-wide ones; proved when they agree. Total weight zero panics."
  },
  {
   "property": "C22",
   "status": "partial",
   "theorems": [
    "C22_within_one_partial",
    "C22_weights_refuted",
    "C22_zero_weight_refuted",
    "C22_live_part",
    "C22_shares_partial"
   ],
   "note": "Exact share is false (the first member gets one draw too many). Proved: within one of the weight, exact for inner members."
  },
  {
   "property": "C23",
   "status": "proved",
   "theorems": [
    "C23_cidr",
    "C23_single",
    "C23_set",
    "C23_text",
    "C23_text_v4",
    "C23_text_total"
   ],
   "note": "All addresses, all prefix lengths 1..32; text form of IP addresses a parameter, concrete for IPv4."
  },
  {
   "property": "C24",
   "status": "partial",
   "theorems": [
    "C24_zero_and_v6_refuted",
    "C24_sound_partial",
    "C24_exact_partial"
   ],
   "note": "False of the code for /0 and IPv6 prefix lengths. Proved: never a match outside the network, and exactly which addresses these entries match."
  },
  {
   "property": "C25",
   "status": "proved",
   "theorems": [
    "C25_sizes",
    "C25_units",
    "C25_plain",
    "C25_exact"
   ],
   "note": "All 64-bit sizes, all ten unit letters; C25_exact: exactly which texts are sizes, for every text."
  },
  {
   "property": "C26",
   "status": "partial",
   "theorems": [
    "C26_durations_refuted",
    "C26_durations_partial",
    "C26_units",
    "C26_exact"
   ],
   "note": "False of the code (milliseconds above 2^32 ns, parts below a millisecond). Proved: exactly which durations survive, and what every text is read as (C26_exact)."
  },
  {
   "property": "C27",
   "status": "partial",
   "theorems": [
    "C27_replace_refuted",
    "C27_rules_partial",
    "C27_lists"
   ],
   "note": "Replace is false of the code: it does what add does. Add, delete, default and untouched headers proved."
  },
  {
   "property": "C28",
   "status": "partial",
   "theorems": [
    "C28_wildcard_partial",
    "C28_plain_refuted"
   ],
   "note": "Patterns with a star: sound for all patterns and paths. A pattern without a star matches every path it is a prefix of (C28_plain_refuted)."
  },
  {
   "property": "C29",
   "status": "partial",
   "theorems": [
    "C29_first_match_partial",
    "C29_all_partial",
    "C29_answer",
    "C29_none",
    "C29_served",
    "C29_try_host_refuted"
   ],
   "note": "Proved for every use of a location before which only locations that leave the Host alone were used. False of the code for try paths after one that was passed on to a backend: they are looked up with the Host written for that backend."
  },
  {
   "property": "C30",
   "status": "partial",
   "theorems": [
    "C30_every_use_partial",
    "C30_refused_partial",
    "C30_network_partial",
    "C30_websocket_refuted"
   ],
   "note": "Enforced for every HTTP use of a location; websocket upgrades bypass it (C30_websocket_refuted)."
  },
  {
   "property": "C31",
   "status": "proved",
   "theorems": [
    "C31_terminates",
    "C31_enough_fuel",
    "C31_fallback",
    "C31_entry"
   ],
   "note": "All configurations, including cyclic ones."
  },
  {
   "property": "C32",
   "status": "partial",
   "theorems": [
    "C32_settings_partial",
    "C32_own_wins",
    "C32_not_inherited_refuted",
    "C32_log_names_refuted",
    "C32_match_names",
    "C32_named_rule",
    "C32_lists"
   ],
   "note": "Own settings win; some settings are not inherited (C32_not_inherited_refuted) and log names clash (C32_log_names_refuted)."
  },
  {
   "property": "C33",
   "status": "proved",
   "theorems": [
    "C33_auth",
    "C33_accepted",
    "C33_empty_credentials"
   ],
   "note": "All client byte streams and segmentations."
  },
  {
   "property": "C34",
   "status": "proved",
   "theorems": [
    "C34_roundtrip",
    "C34_udp_roundtrip",
    "C34_target",
    "C34_asks_one"
   ],
   "note": "All addresses and ports; names up to the resolver, a parameter."
  },
  {
   "property": "C35",
   "status": "partial",
   "theorems": [
    "C35_cut_refuted",
    "C35_name_refuted",
    "C35_datagram_refuted",
    "C35_no_crash_partial"
   ],
   "note": "False of the code: closing before the greeting is complete, an empty resolution and a three byte datagram panic. Proved: nothing else does."
  },
  {
   "property": "C36",
   "status": "partial",
   "theorems": [
    "C36_check",
    "C36_accepted",
    "C36_exact",
    "C36_connection_partial",
    "C36_dials_refuted",
    "C36_later_refuted",
    "C36_scheme_refuted",
    "C36_colon_refuted",
    "C36_crash_refuted"
   ],
   "note": "False of the code in five ways: the target is connected to before the check, later requests are not checked, the scheme is ignored, colons are refused, malformed values crash. Proved: nothing is forwarded on a connection without the exact credentials on it."
  },
  {
   "property": "C37",
   "status": "partial",
   "theorems": [
    "C37_inside_partial",
    "C37_check_void",
    "C37_anyfile_refuted",
    "C37_alias_refuted"
   ],
   "note": "False of the code: every file of the machine can be fetched with .. segments (the check never refuses anything), and with /prefix../x even without a .. segment. Proved for paths in which .. does not occur."
  },
  {
   "property": "C38",
   "status": "partial",
   "theorems": [
    "C38_hidden_partial",
    "C38_index_refuted",
    "C38_compressed_refuted",
    "C38_slash_refuted"
   ],
   "note": "False of the code for index files, precompressed files and patterns with a slash. Proved for patterns without slash otherwise."
  },
  {
   "property": "C39",
   "status": "partial",
   "theorems": [
    "C39_header",
    "C39_exact",
    "C39_answer_partial",
    "C39_suffix_refuted",
    "C39_open_refuted",
    "C39_beyond_refuted",
    "C39_unit_refuted"
   ],
   "note": "C39_header is the answer to every header; C39_exact says exactly which ranges are answered as RFC 7233 says: those inside the file. The other forms are wrong."
  },
  {
   "property": "C40",
   "status": "partial",
   "theorems": [
    "C40_tag",
    "C40_conditional_partial",
    "C40_range_refuted",
    "C40_interval_refuted",
    "C40_epoch_refuted"
   ],
   "note": "Proved for requests without Range header; false with one."
  },
  {
   "property": "C41",
   "status": "proved",
   "theorems": [
    "C41_replies",
    "C41_flushed",
    "C41_own_session",
    "C41_upstream",
    "C41_goes_up",
    "C41_none_lost"
   ],
   "note": ""
  },
  {
   "property": "C42",
   "status": "proved",
   "theorems": [
    "C42_old_stops_after_new",
    "C42_no_gap",
    "C42_handover",
    "C42_exit_only_when_none",
    "C42_exit_if_none",
    "C42_stop_exits",
    "C42_stop_ends",
    "C42_configurations",
    "C42_newest"
   ],
   "note": "The generations, the control loop and the handlers are interleaved by an arbitrary event list."
  },
  {
   "property": "C43",
   "status": "proved",
   "theorems": [
    "C43_text",
    "C43_every_text"
   ],
   "note": "Any text, any mixture of doubling and escaping, any writer."
  },
  {
   "property": "C44",
   "status": "partial",
   "theorems": [
    "C44_line",
    "C44_width_partial",
    "C44_bounds",
    "C44_lost_refuted",
    "C44_width_refuted"
   ],
   "note": "C44_line says exactly what is written for every pattern. It is the documented result where no minimum is above its maximum; false of the code otherwise."
  },
  {
   "property": "C45",
   "status": "partial",
   "theorems": [
    "C45_kinds_refuted",
    "C45_kinds_partial",
    "C45_json",
    "C45_json_other",
    "C45_exact"
   ],
   "note": "False of the code for TCP and UDP. Proved: exactly the bits HTTP, HTTPS, SOCKS5 survive; the JSON form keeps every set."
  },
  {
   "property": "C46",
   "status": "partial",
   "theorems": [
    "C46_range_refuted",
    "C46_dash_refuted",
    "C46_range_no_local_refuted",
    "C46_range_partial",
    "C46_list",
    "C46_port",
    "C46_one",
    "C46_no_crash_partial",
    "C46_roundtrip",
    "C46_roundtrip_v4"
   ],
   "note": "ip:p-ip:q panics in the code for every p, q. Proved: the ip:p-:q form, comma lists, display round trip, no panic without a dash."
  },
  {
   "property": "C47",
   "status": "proved",
   "theorems": [
    "C47_targets"
   ],
   "note": ""
  },
  {
   "property": "C48",
   "status": "proved",
   "theorems": [
    "C48_bytes",
    "C48_choice",
    "C48_same_answers"
   ],
   "note": "All byte streams, segmentations and sizes of the first read."
  },
  {
   "property": "C49",
   "status": "partial",
   "theorems": [
    "C49_head_of_line_refuted",
    "C49_stall_general",
    "C49_resume_partial"
   ],
   "note": "False of the code. Proved: exact stall condition and that one read by the slow handler resumes the loop."
  },
  {
   "property": "C50",
   "status": "partial",
   "theorems": [
    "C50_self_deadlock_refuted",
    "C50_stuck_forever",
    "C50_only_then_partial"
   ],
   "note": "False of the code; the stuck state is reachable and permanent."
  },
  {
   "property": "C51",
   "status": "partial",
   "theorems": [
    "C51_one_thread_partial",
    "C51_overtaken_refuted"
   ],
   "note": "Proved when all tasks run on one thread; false of the code on several threads: whenever the loop stands between its two queues, data overtakes the create."
  },
  {
   "property": "C52",
   "status": "partial",
   "theorems": [
    "C52_reload_limits_refuted",
    "C52_new_zone_partial"
   ],
   "note": "False of the code: an existing zone keeps its old numbers. Proved: new zones get theirs, others are untouched."
  },
  {
   "property": "C53",
   "status": "proved",
   "theorems": [
    "C53_connect"
   ],
   "note": "All address lists and health states; reachability fixed during one call."
  },
  {
   "property": "C54",
   "status": "partial",
   "theorems": [
    "C54_limits_refuted",
    "C54_zone_partial",
    "C54_limit_req",
    "C54_order",
    "C54_rates",
    "C54_exact"
   ],
   "note": "False of the code where the period is not printable (C26). Proved for every other zone; limit_req in full."
  },
  {
   "property": "C55",
   "status": "partial",
   "theorems": [
    "C55_header_rules_refuted",
    "C55_header_rules_partial",
    "C55_written",
    "C55_exact"
   ],
   "note": "False of the code for default rules, deletes for the request, and values with blanks. Proved for all other rules; C55_exact: exactly which lines are read as which rule."
  },
  {
   "property": "C56",
   "status": "partial",
   "theorems": [
    "C56_no_crash_refuted",
    "C56_no_crash_partial",
    "C56_durations_partial",
    "C56_rates_partial",
    "C56_zones_partial",
    "C56_headers_partial",
    "C56_exact_partial"
   ],
   "note": "False of the code (blank header rules and zones, overflowing sizes and durations). Proved: kinds, logs, limit_req never; exact condition for headers and sizes."
  },
  {
   "property": "C57",
   "status": "proved",
   "theorems": [
    "C57_logs",
    "C57_exact"
   ],
   "note": "All names and formats without blanks, all levels."
  },
  {
   "property": "C58",
   "status": "partial",
   "theorems": [
    "C58_remote_ip_refuted"
   ],
   "note": "False of the code."
  },
  {
   "property": "C59",
   "status": "partial",
   "theorems": [
    "C59_stale_refuted",
    "C59_forgotten_partial",
    "C59_reuse_partial"
   ],
   "note": "False of the code: the request is lost. Proved: the dead connection is not used again."
  },
  {
   "property": "C60",
   "status": "partial",
   "theorems": [
    "C60_request_rules_refuted",
    "C60_response_rules_refuted",
    "C60_host_refuted"
   ],
   "note": "False of the code in three ways."
  },
  {
   "property": "C61",
   "status": "partial",
   "theorems": [
    "C61_own_root_refuted",
    "C61_server_root_partial"
   ],
   "note": "False of the code when only the location sets a root. Proved when the server sets it."
  },
  {
   "property": "C62",
   "status": "partial",
   "theorems": [
    "C62_early_data_refuted",
    "C62_waiting_partial"
   ],
   "note": "False of the code. Proved: a client that waits for the reply loses nothing."
  },
  {
   "property": "C63",
   "status": "partial",
   "theorems": [
    "C63_first_sender_refuted",
    "C63_malformed_refuted",
    "C63_one_client_partial",
    "C63_content"
   ],
   "note": "False of the code: the first sender takes the association, anybody can end it. Proved: one relay serves one address only, and contents are kept."
  },
  {
   "property": "C64",
   "status": "partial",
   "theorems": [
    "C64_segmentation_partial",
    "C64_segmentation_refuted"
   ],
   "note": "False of the code for clients that do not offer user/password where it is required. Proved for all others."
  },
  {
   "property": "C65",
   "status": "partial",
   "theorems": [
    "C65_target_refuted",
    "C65_first_partial",
    "C65_connection_partial"
   ],
   "note": "False of the code from the second request on. Proved for the first, and for whole connections: which host owns the connection, and that every request before there is one goes to the host it names."
  },
  {
   "property": "C66",
   "status": "partial",
   "theorems": [
    "C66_leak_refuted",
    "C66_first_partial",
    "C66_connection_partial"
   ],
   "note": "False of the code from the second request on. Proved for the first, and for whole connections: exactly which requests carry the credentials on."
  },
  {
   "property": "C67",
   "status": "partial",
   "theorems": [
    "C67_changed_partial",
    "C67_stale_refuted"
   ],
   "note": "False of the code when both validators are sent."
  },
  {
   "property": "C68",
   "status": "partial",
   "theorems": [
    "C68_crash",
    "C68_safe_partial",
    "C68_crash_refuted",
    "C68_index_refuted",
    "C68_status_refuted"
   ],
   "note": "C68_crash says exactly when, for a configured status of three digits: a prefix that decoding destroys, or an index that is the absolute path of a directory elsewhere. With any other status every refused request crashes."
  },
  {
   "property": "C69",
   "status": "partial",
   "theorems": [
    "C106_type_partial",
    "C106_ignored_refuted",
    "C69_default"
   ],
   "note": "False of the code for extensions in the built-in table."
  },
  {
   "property": "C70",
   "status": "partial",
   "theorems": [
    "C70_status_partial",
    "C70_outside_partial",
    "C70_status_refuted"
   ],
   "note": "False of the code with an error page."
  },
  {
   "property": "C71",
   "status": "partial",
   "theorems": [
    "C71_link_partial",
    "C71_directory_partial",
    "C71_link_refuted"
   ],
   "note": "False of the code for names with a percent sign or backslash."
  },
  {
   "property": "C72",
   "status": "partial",
   "theorems": [
    "C72_answer_partial",
    "C72_label_refuted"
   ],
   "note": "False of the code with disable_compress."
  },
  {
   "property": "C73",
   "status": "partial",
   "theorems": [
    "C73_new_session_partial",
    "C73_black_hole_refuted"
   ],
   "note": "Proved for a client without session or silent for longer than the timeout; false of the code otherwise."
  },
  {
   "property": "C74",
   "status": "partial",
   "theorems": [
    "C74_only_replies_partial",
    "C74_any_source_refuted"
   ],
   "note": "Proved: what a client is given was received by a session opened for it, and came from the upstream when only upstreams write to the sessions' sockets. False of the code otherwise: the source is never looked at."
  },
  {
   "property": "C75",
   "status": "partial",
   "theorems": [
    "C75_one_per_client_partial",
    "C75_kept_for_ever_refuted"
   ],
   "note": "Proved: at most one entry for each client that ever sent. False of the code beyond that: entries are kept for ever."
  },
  {
   "property": "C76",
   "status": "partial",
   "theorems": [
    "C76_replies_partial",
    "C76_spurious_refuted",
    "C76_truncated_refuted"
   ],
   "note": "Proved while no session has ended and no reply exceeds 9096 bytes; false of the code otherwise."
  },
  {
   "property": "C77",
   "status": "partial",
   "theorems": [
    "C77_grammar_partial",
    "C77_terminates",
    "C77_argument_refuted",
    "C77_fill_refuted",
    "C77_rest_refuted",
    "C77_number_refuted"
   ],
   "note": "False of the code for doubled closing parentheses in arguments, empty format specifications before < or >, widths of 2^64 and more. Proved for the rest of the grammar."
  },
  {
   "property": "C78",
   "status": "partial",
   "theorems": [
    "C78_field_partial",
    "C78_date",
    "C78_date_default",
    "C78_date_zone",
    "C78_client_refuted",
    "C78_unknown",
    "C78_mdc_mistake",
    "C78_mdc_refuted",
    "C78_silent_refuted",
    "C78_style_refuted"
   ],
   "note": "False of the code for the MDC, eight silent fields and the styles. Proved for the other fields."
  },
  {
   "property": "C79",
   "status": "partial",
   "theorems": [
    "C79_crash",
    "C79_safe_partial",
    "C79_crash_refuted"
   ],
   "note": "C79_crash says exactly when: an invalid date format."
  },
  {
   "property": "C80",
   "status": "partial",
   "theorems": [
    "C80_portions_partial",
    "C80_cut_refuted"
   ],
   "note": "False of the code for the client address."
  },
  {
   "property": "C81",
   "status": "partial",
   "theorems": [
    "C81_now_shows_first_refuted"
   ],
   "note": "False of the code; the theorem states what it does instead, for all histories."
  },
  {
   "property": "C82",
   "status": "partial",
   "theorems": [
    "C82_reload_answer_refuted"
   ],
   "note": "False of the code; the theorem states what it does instead, for all histories."
  },
  {
   "property": "C83",
   "status": "partial",
   "theorems": [
    "C83_failed_reload_refuted"
   ],
   "note": "False of the code; the theorem states what it does instead, for all histories and continuations."
  },
  {
   "property": "C84",
   "status": "partial",
   "theorems": [
    "C84_panic_never_exits_refuted",
    "C84_no_port_never_exits_refuted",
    "C42_exit_if_none"
   ],
   "note": "False of the code in two cases. C42_exit_if_none proves it where no generation is lost and the control port is served."
  },
  {
   "property": "C85",
   "status": "proved",
   "theorems": [
    "C85_requests",
    "C85_last_registration"
   ],
   "note": ""
  },
  {
   "property": "C86",
   "status": "proved",
   "theorems": [
    "C86_greeting_first",
    "C86_never_refused",
    "C86_registered"
   ],
   "note": ""
  },
  {
   "property": "C87",
   "status": "proved",
   "theorems": [
    "C87_contact"
   ],
   "note": ""
  },
  {
   "property": "C88",
   "status": "partial",
   "theorems": [
    "C88_meant_partial",
    "C88_meant_refuted"
   ],
   "note": "Proved for mapping lists without repeated names or domains; false of the code otherwise."
  },
  {
   "property": "C89",
   "status": "partial",
   "theorems": [
    "C89_down",
    "C89_up",
    "C89_visitor_gets",
    "C89_service_gets_partial",
    "C89_visitor_all",
    "C89_service_all_partial",
    "C89_service_refuted"
   ],
   "note": "The received bytes hold for every history; at the visitor and at the local service for joint histories in which nothing is read before it is written. Towards the local service only without the overflow of C11 and if requests leave the server before data (the order select! looks at its queues); a refuted theorem shows what happens when both are queued between the two looks."
  },
  {
   "property": "C90",
   "status": "proved",
   "theorems": [
    "C90_failed_connect"
   ],
   "note": ""
  },
  {
   "property": "C91",
   "status": "proved",
   "theorems": [
    "C91_half_credentials"
   ],
   "note": ""
  },
  {
   "property": "C92",
   "status": "proved",
   "theorems": [
    "C92_again",
    "C92_greeting_again",
    "C92_never_refused",
    "C92_registered",
    "C92_contact",
    "C92_own_connections"
   ],
   "note": ""
  },
  {
   "property": "C93",
   "status": "partial",
   "theorems": [
    "C93_sent_once",
    "C93_visitor_gets_partial",
    "C93_crossed_refuted"
   ],
   "note": "False of the code when data of an earlier connection is still queued."
  },
  {
   "property": "C94",
   "status": "proved",
   "theorems": [
    "C94_client_ends",
    "C94_server_ends"
   ],
   "note": ""
  },
  {
   "property": "C95",
   "status": "partial",
   "theorems": [
    "C95_what_crashes_partial",
    "C95_token_kills_refuted"
   ],
   "note": "False of the code for a token frame."
  },
  {
   "property": "C96",
   "status": "partial",
   "theorems": [
    "C96_first_request",
    "C96_closed",
    "C96_same_host_partial",
    "C96_one_stream",
    "C96_other_host_refuted"
   ],
   "note": "False of the code for a later request with another Host."
  },
  {
   "property": "C97",
   "status": "partial",
   "theorems": [
    "C97_unknown_host_partial",
    "C97_sticks_refuted",
    "C97_status_refuted"
   ],
   "note": "False of the code after a first unknown Host, and in the status."
  },
  {
   "property": "C98",
   "status": "proved",
   "theorems": [
    "C98_listening",
    "C98_starts",
    "C98_needs"
   ],
   "note": ""
  },
  {
   "property": "C99",
   "status": "partial",
   "theorems": [
    "C99_tls",
    "C99_tls_partial",
    "C99_plain_refuted"
   ],
   "note": "False of the code for an address an earlier entry lists as plain."
  },
  {
   "property": "C100",
   "status": "partial",
   "theorems": [
    "C100_port_partial",
    "C100_elsewhere_refuted"
   ],
   "note": "Only the port is compared."
  },
  {
   "property": "C101",
   "status": "proved",
   "theorems": [
    "C101_sni"
   ],
   "note": ""
  },
  {
   "property": "C102",
   "status": "partial",
   "theorems": [
    "C102_listening",
    "C102_listening_partial",
    "C102_starts",
    "C102_port_taken_refuted"
   ],
   "note": "False of the code for a port listed twice."
  },
  {
   "property": "C103",
   "status": "proved",
   "theorems": [
    "C103_backend"
   ],
   "note": ""
  },
  {
   "property": "C104",
   "status": "partial",
   "theorems": [
    "C104_relay_partial",
    "C104_turns",
    "C104_blocked_refuted"
   ],
   "note": "False of the code: one lock is held for the whole relay."
  },
  {
   "property": "C105",
   "status": "proved",
   "theorems": [
    "C105_websocket"
   ],
   "note": "The location that serves a WebSocket upgrade."
  },
  {
   "property": "C106",
   "status": "partial",
   "theorems": [
    "C106_type_partial",
    "C106_ignored_refuted"
   ],
   "note": "False of the code: a configured type is ignored where a built-in type exists. Proved for the extensions the built-in table does not know, and for the extensions the configuration does not name."
  },
  {
   "property": "C107",
   "status": "proved",
   "theorems": [
    "C107_visitor",
    "C107_refused",
    "C107_order",
    "C107_numbers"
   ],
   "note": ""
  },
  {
   "property": "C108",
   "status": "partial",
   "theorems": [
    "C108_only_client_partial",
    "C108_later_client_refuted"
   ],
   "note": "False of the code: the first connected client takes all visitors."
  },
  {
   "property": "C109",
   "status": "partial",
   "theorems": [
    "C109_order",
    "C109_accepts_partial",
    "C109_stops_partial",
    "C109_only_told",
    "C109_recovers_partial",
    "C109_silent_peer_refuted",
    "C109_upper_server_refuted",
    "C109_full_queue_refuted"
   ],
   "note": "The order is proved for all configurations, the rest without TLS, upper server and tunnel client; false of the code with them. For all configurations: the loop goes on as soon as what it waits for has happened."
  },
  {
   "property": "C110",
   "status": "proved",
   "theorems": [
    "C110_on",
    "C110_secured",
    "C110_client",
    "C110_clear_refuted",
    "C110_client_clear_refuted",
    "C110_crash_refuted"
   ],
   "note": "The _refuted theorems show the silent fall back to clear text and a crash."
  },
  {
   "property": "C111",
   "status": "proved",
   "theorems": [
    "C111_ports",
    "C111_acceptor",
    "C111_taken",
    "C111_https_refuted"
   ],
   "note": ""
  },
  {
   "property": "C112",
   "status": "partial",
   "theorems": [
    "C112_reached_partial",
    "C112_unreachable_refuted"
   ],
   "note": "False of the code: process::exit."
  },
  {
   "property": "C113",
   "status": "partial",
   "theorems": [
    "C113_through_partial",
    "C113_frozen_refuted"
   ],
   "note": "False of the code after a reload."
  },
  {
   "property": "C114",
   "status": "proved",
   "theorems": [
    "C114_fifo"
   ],
   "note": ""
  },
  {
   "property": "C115",
   "status": "proved",
   "theorems": [
    "C115_due",
    "C115_backends",
    "C115_new_list",
    "C115_ends",
    "C115_spacing"
   ],
   "note": "The checker as the library offers it; the server does not start it."
  },
  {
   "property": "C116",
   "status": "proved",
   "theorems": [
    "C116_again",
    "C116_until",
    "C116_command"
   ],
   "note": ""
  },
  {
   "property": "C117",
   "status": "partial",
   "theorems": [
    "C117_error_refuted",
    "C117_crash_partial"
   ],
   "note": "False of the code: errors end with status 0."
  },
  {
   "property": "C118",
   "status": "partial",
   "theorems": [
    "C118_shared_partial",
    "C118_run_refuted"
   ],
   "note": "False of the code for run; control port always off for file-server, reverse-proxy and ws-proxy."
  },
  {
   "property": "C119",
   "status": "partial",
   "theorems": [
    "C119_options_partial",
    "C119_ignored_refuted",
    "C119_no_tls_refuted",
    "C119_access_log_refuted",
    "C119_access_log_trace",
    "C119_log_set",
    "C119_log_lines",
    "C119_ws_log_refuted",
    "C119_header_refuted"
   ],
   "note": "False of the code for --browse, --ext-mimetype, --access-log and --header. C119_log_lines goes from the words of the command to the lines written."
  },
  {
   "property": "C120",
   "status": "partial",
   "theorems": [
    "C120_accepted",
    "C120_single",
    "C120_case_refuted"
   ],
   "note": "False of the code unless the mode is in lower case."
  },
  {
   "property": "C121",
   "status": "partial",
   "theorems": [
    "C121_verdict_partial",
    "C121_status_refuted",
    "C121_crash_refuted",
    "C121_formats",
    "C121_started"
   ],
   "note": "The printed verdict is right as far as reading goes; the status is not."
  },
  {
   "property": "C122",
   "status": "partial",
   "theorems": [
    "C122_asks_partial",
    "C122_status_refuted",
    "C122_says",
    "C122_pid",
    "C122_nothing"
   ],
   "note": "False of the code for the exit status."
  },
  {
   "property": "C123",
   "status": "partial",
   "theorems": [
    "C123_single",
    "C123_backend_partial",
    "C123_lookup_refuted"
   ],
   "note": "False of the code after half a minute without results."
  },
  {
   "property": "C124",
   "status": "partial",
   "theorems": [
    "C124_signal_partial",
    "C124_stale_refuted",
    "C124_own"
   ],
   "note": "False of the code after a signal."
  },
  {
   "property": "C125",
   "status": "partial",
   "theorems": [
    "C125_member_partial",
    "C125_host_partial",
    "C125_name_lookup_refuted",
    "C125_no_host_refuted"
   ],
   "note": "False of the code when the upstream has no member to offer and for URLs without a host."
  },
  {
   "property": "C126",
   "status": "partial",
   "theorems": [
    "C126_member_partial",
    "C126_up_name",
    "C126_host",
    "C126_port_refuted",
    "C126_lookup_refuted"
   ],
   "note": "False of the code if the URL has a port and when the upstream has no member to offer."
  },
  {
   "property": "C127",
   "status": "partial",
   "theorems": [
    "C127_relay_partial",
    "C127_drains",
    "C127_takes",
    "C127_member",
    "C127_configured",
    "C127_told",
    "C127_deaf_refuted",
    "C127_lost_refuted"
   ],
   "note": "False of the code for a proxy_url that is not an upstream, and for frames that wait when the backend connection ends."
  },
  {
   "property": "C128",
   "status": "partial",
   "theorems": [
    "C128_settings",
    "C128_first_partial",
    "C128_first_refuted"
   ],
   "note": "False of the code for the client limits of all but the first server."
  },
  {
   "property": "C129",
   "status": "partial",
   "theorems": [
    "C129_refused_partial",
    "C129_silent_refuted",
    "C129_next_refuted"
   ],
   "note": "False of the code for addresses that do not answer."
  },
  {
   "property": "C130",
   "status": "proved",
   "theorems": [
    "C130_answered"
   ],
   "note": ""
  },
  {
   "property": "C131",
   "status": "partial",
   "theorems": [
    "C131_entry",
    "C131_http_partial",
    "C131_agree_partial",
    "C131_shared_refuted"
   ],
   "note": "False of the code if two sites define the same name differently."
  },
  {
   "property": "C132",
   "status": "partial",
   "theorems": [
    "C132_line_partial",
    "C132_level_refuted",
    "C132_format_refuted"
   ],
   "note": "False of the code for levels that do not fit and formats that are not defined."
  },
  {
   "property": "C133",
   "status": "partial",
   "theorems": [
    "C133_exactly_refuted"
   ],
   "note": "The condition is exact; false of the code in that it crashes instead of reporting."
  },
  {
   "property": "C134",
   "status": "proved",
   "theorems": [
    "C134_general"
   ],
   "note": ""
  },
  {
   "property": "C135",
   "status": "partial",
   "theorems": [
    "C135_answers",
    "C135_same_rule_partial",
    "C135_own_partial",
    "C135_other_site_refuted"
   ],
   "note": "False of the code for sites whose locations have the same rule."
  },
  {
   "property": "C136",
   "status": "partial",
   "theorems": [
    "C136_first_partial",
    "C136_later_refuted"
   ],
   "note": "False of the code for all but the first backend."
  },
  {
   "property": "C137",
   "status": "partial",
   "theorems": [
    "C137_method_refuted"
   ],
   "note": "False of the code."
  },
  {
   "property": "C138",
   "status": "partial",
   "theorems": [
    "C138_read",
    "C138_one_partial",
    "C138_more_refuted"
   ],
   "note": "False of the code for sets of two or more."
  },
  {
   "property": "C139",
   "status": "partial",
   "theorems": [
    "C139_read",
    "C139_default",
    "C139_bad_status_refuted",
    "C139_shown_refuted"
   ],
   "note": "Reading proved; an invalid status is not reported and what is shown does not read back."
  },
  {
   "property": "C140",
   "status": "partial",
   "theorems": [
    "C140_plain",
    "C140_regex",
    "C140_no_match",
    "C140_blank_refuted",
    "C140_quoted_refuted"
   ],
   "note": "False of the code for paths with blanks."
  },
  {
   "property": "C141",
   "status": "proved",
   "theorems": [
    "C141_same",
    "C141_right",
    "C141_bounded"
   ],
   "note": ""
  },
  {
   "property": "C142",
   "status": "partial",
   "theorems": [
    "C142_static",
    "C142_text",
    "C142_crash_refuted"
   ],
   "note": "Proved where the encoder reports no error."
  },
  {
   "property": "C143",
   "status": "partial",
   "theorems": [
    "C143_hash",
    "C143_equality",
    "C143_shared",
    "C143_clone",
    "C143_other_upstream_refuted"
   ],
   "note": "Upstreams are not compared."
  },
  {
   "property": "C144",
   "status": "partial",
   "theorems": [
    "C144_sections",
    "C144_own_port_refuted",
    "C144_resumes_partial",
    "C144_datagram_partial",
    "C144_stop"
   ],
   "note": "False of the code for the ports with a branch of their own."
  },
  {
   "property": "C145",
   "status": "proved",
   "theorems": [
    "C145_opened",
    "C145_reload",
    "C145_foreign"
   ],
   "note": ""
  },
  {
   "property": "C146",
   "status": "partial",
   "theorems": [
    "C146_second_refuted",
    "C146_other_user_partial"
   ],
   "note": "False of the code for the same user."
  },
  {
   "property": "C147",
   "status": "partial",
   "theorems": [
    "C147_taken_partial",
    "C147_first_taken_refuted"
   ],
   "note": "False of the code if an earlier address cannot be opened."
  },
  {
   "property": "C148",
   "status": "partial",
   "theorems": [
    "C148_ipv4_partial",
    "C148_ipv6_refuted",
    "C148_no_start_refuted",
    "C148_starts_partial"
   ],
   "note": "False of the code for IPv6."
  },
  {
   "property": "C149",
   "status": "proved",
   "theorems": [
    "C149_counts",
    "C149_down"
   ],
   "note": "About the checker itself: at this commit the server starts it nowhere (the call in wmcore.rs is commented out)."
  },
  {
   "property": "C150",
   "status": "partial",
   "theorems": [
    "C150_taken_out_partial",
    "C150_back",
    "C150_traffic_refuted"
   ],
   "note": "False of the code if requests are forwarded in between."
  },
  {
   "property": "C151",
   "status": "partial",
   "theorems": [
    "C151_no_http_refuted",
    "C151_server_error_refuted"
   ],
   "note": "False of the code."
  },
  {
   "property": "C152",
   "status": "partial",
   "theorems": [
    "C152_ends",
    "C152_outcome",
    "C152_control_bytes",
    "C152_relays_partial",
    "C152_fragment_refuted",
    "C152_ipv6_refuted",
    "C152_told_partial",
    "C152_told_refuted"
   ],
   "note": "False of the code for fragments, IPv6 targets and an IPv6 udp_bind."
  },
  {
   "property": "C153",
   "status": "partial",
   "theorems": [
    "C153_headers",
    "C153_error_refuted"
   ],
   "note": "Proved for answers with files; errors carry none."
  },
  {
   "property": "C154",
   "status": "partial",
   "theorems": [
    "C154_resume_partial",
    "C154_unknown_time",
    "C154_epoch_refuted",
    "C154_unpositioned"
   ],
   "note": "False of the code for files of the first second of 1970."
  },
  {
   "property": "C155",
   "status": "proved",
   "theorems": [
    "C155_working_directory"
   ],
   "note": ""
  },
  {
   "property": "C156",
   "status": "partial",
   "theorems": [
    "C156_encoded_partial",
    "C156_undecodable",
    "C156_prefix_refuted"
   ],
   "note": "False of the code when the prefix is encoded."
  },
  {
   "property": "C157",
   "status": "partial",
   "theorems": [
    "C157_tunnel_partial",
    "C157_single",
    "C157_early_refuted",
    "C157_later_refuted",
    "C157_later_answered_refuted",
    "C157_retry_refuted"
   ],
   "note": "False of the code for bytes sent early, later requests and repeated ones."
  },
  {
   "property": "C158",
   "status": "partial",
   "theorems": [
    "C158_named_partial",
    "C158_single",
    "C158_only_configured",
    "C158_same_name_refuted",
    "C158_unnamed_refuted"
   ],
   "note": "False of the code for sites of one name and unnamed clients."
  },
  {
   "property": "C159",
   "status": "partial",
   "theorems": [
    "C159_several",
    "C159_single",
    "C159_format_refuted",
    "C159_two_keys_refuted"
   ],
   "note": "Exact condition proved; it excludes usable keys."
  },
  {
   "property": "C160",
   "status": "partial",
   "theorems": [
    "C160_virtual_never_closes_refuted",
    "C160_other_end_not_told_refuted",
    "C160_shutdown_refuted",
    "C160_bridge_closes_partial"
   ],
   "note": "The bridge tells the virtual stream; the virtual stream never tells the bridge."
  },
  {
   "property": "C161",
   "status": "proved",
   "theorems": [
    "C161_requests",
    "C161_responses",
    "C161_rules_first"
   ],
   "note": "The meaning of a single rule, and where it differs from its name, is the matter of C27."
  },
  {
   "property": "C162",
   "status": "proved",
   "theorems": [
    "C162_order",
    "C162_complete",
    "C162_settles",
    "C162_bounded",
    "C162_held",
    "C162_frames"
   ],
   "note": ""
  },
  {
   "property": "C163",
   "status": "proved",
   "theorems": [
    "C163_both_ends",
    "C163_only_then"
   ],
   "note": ""
  },
  {
   "property": "C164",
   "status": "partial",
   "theorems": [
    "C164_verified",
    "C164_steps",
    "C164_client",
    "C164_clear_refuted"
   ],
   "note": "Holds when the certificate file can be read; when it cannot, the code silently uses the clear (refuted theorem)."
  },
  {
   "property": "C165",
   "status": "proved",
   "theorems": [
    "C165_listing"
   ],
   "note": ""
  },
  {
   "property": "C166",
   "status": "partial",
   "theorems": [
    "C166_reading_partial",
    "C166_markup_refuted"
   ],
   "note": "Holds if names and links hold neither a quote nor a less-than sign; otherwise a name is copied into the page as markup (refuted theorem)."
  },
  {
   "property": "C167",
   "status": "partial",
   "theorems": [
    "C167_number_partial",
    "C167_accepted_partial",
    "C167_yaml_refuted",
    "C167_negative_refuted",
    "C167_texts",
    "C167_quotes_partial",
    "C167_unwritten",
    "C167_other"
   ],
   "note": "Numbers hold for toml only: in a yaml file every number from 0 up is refused and the file with it, and in both formats a negative number is taken for one second (refuted theorems). Which visitor method serde_yaml and toml call is assumed as documented."
  },
  {
   "property": "C168",
   "status": "partial",
   "theorems": [
    "C168_taken",
    "C168_keys",
    "C168_unknown_refuted",
    "C168_sample_refuted"
   ],
   "note": "Known keys are taken as written and nothing is invented. False of the code: unknown keys are skipped silently, so the address of the proxy in the shipped client.toml (bind_addr instead of bind) has no effect (refuted theorems). Types of single values are a parameter."
  },
  {
   "property": "C169",
   "status": "partial",
   "theorems": [
    "C169_exact",
    "C169_kinds",
    "C169_empty",
    "C169_needed",
    "C169_left_out",
    "C169_server_partial",
    "C169_bind_ssl_refuted",
    "C169_sample_refuted"
   ],
   "note": "Exact form of an accepted file. False of the code: bind_addr and bind_ssl are both required, so the shipped reverse.toml is refused (refuted theorems)."
  },
  {
   "property": "C170",
   "status": "partial",
   "theorems": [
    "C170_named_partial",
    "C170_like_tcp_partial",
    "C170_nowhere",
    "C170_session",
    "C170_own_refuted",
    "C170_empty_refuted",
    "C170_url_refuted",
    "C170_unnamed_refuted",
    "C170_zero_weight_refuted"
   ],
   "note": "Holds when exactly one upstream has the name. False of the code: the last upstream of that name wins (so the one of the section before the own one, and an empty one hides the others), proxy_url and the empty name are not looked at, and a group of total weight zero crashes the accepting task (refuted theorems)."
  },
  {
   "property": "C171",
   "status": "partial",
   "theorems": [
    "C171_settings_partial",
    "C171_accepted_partial",
    "C171_order_partial",
    "C171_unknown_partial",
    "C171_word_partial",
    "C171_letters",
    "C171_level",
    "C171_number",
    "C171_text",
    "C171_no_command"
   ],
   "note": "Missing: several letters, or a letter and its value, in one word; a lone double dash. What bpaf does with the tables is modelled from its documentation."
  },
  {
   "property": "C172",
   "status": "partial",
   "theorems": [
    "C172_mappings_refuted",
    "C172_values_refuted",
    "C172_no_crash_partial",
    "C172_plain_partial"
   ],
   "note": "False of the code: every value of --mappings, a list of addresses that is a dash, a header of blanks and a huge duration crash; proved that nothing else does."
  },
  {
   "property": "C173",
   "status": "partial",
   "theorems": [
    "C173_settings_partial",
    "C173_rule_partial",
    "C173_rules_partial",
    "C173_backend_partial",
    "C173_rule_refuted",
    "C173_lists_refuted",
    "C173_added_twice_refuted"
   ],
   "note": "Settings, maps, root, file server, ordinary rules and the backend that is found stay. False of the code: header rules and backends of the server are appended to every location once more, so an added header is added twice, and a named rule that is itself a name is resolved one step further (refuted theorems)."
  },
  {
   "property": "C174",
   "status": "partial",
   "theorems": [
    "C174_loaded",
    "C174_rule",
    "C174_values",
    "C174_exact_partial",
    "C174_shown_partial",
    "C174_lost_refuted"
   ],
   "note": "Exact: the configuration survives if and only if every single value of it does, and the values that do are listed. False of the code for times in milliseconds beyond 4294ms, default header rules, header values of two words, sets of methods, try_paths and logs without a format (refuted theorem). Text forms of other libraries are parameters."
  },
  {
   "property": "C175",
   "status": "partial",
   "theorems": [
    "C175_settings_partial",
    "C175_flags",
    "C175_mappings",
    "C175_listens_partial",
    "C175_option",
    "C175_empty",
    "C175_unset_refuted",
    "C175_https_refuted",
    "C175_udp_flag_refuted"
   ],
   "note": "False of the code: there is no call for the server id, the certificate and key of the https mapping and the check of certificates both ways, the client port cannot be left out, and the flag for UDP contains those for https and socks5 (refuted theorems)."
  },
  {
   "property": "C176",
   "status": "partial",
   "theorems": [
    "C176_read_partial",
    "C176_end",
    "C176_writes",
    "C176_started_partial",
    "C176_write_refuted",
    "C176_started_refuted"
   ],
   "note": "False of the code: write_mut hands out the read buffer, so what is put for writing is read back, or sent into the tunnel, and never written to the stream (refuted theorems)."
  },
  {
   "property": "C177",
   "status": "partial",
   "theorems": [
    "C177_server_partial",
    "C177_added_partial",
    "C177_rules_refuted",
    "C177_error_refuted"
   ],
   "note": "False of the code: rules for the server header have no effect, and the 408 and 500 answers of a reverse server do not have the header (refuted theorems). That the texts webparse makes for these two have no server header is an assumption about that library; what wenmeng answers when an operate function fails is not modelled."
  },
  {
   "property": "C178",
   "status": "partial",
   "theorems": [
    "C178_section",
    "C178_proxy_partial",
    "C178_file_partial",
    "C178_reverse",
    "C178_ws_partial",
    "C178_default_refuted",
    "C178_remote_refuted",
    "C178_config_refuted",
    "C178_addresses_refuted",
    "C178_loader",
    "C178_access_log"
   ],
   "note": "False of the code: without options nothing is listened at, although 127.0.0.1:8090 is documented; --bind with --tc opens no port for tunnels; there is no config command; of two ws-proxy addresses with one port only the first is opened; an address for both plain and TLS is plain (refuted theorems). That loading a section leaves the addresses of its servers is a hypothesis."
  },
  {
   "property": "C179",
   "status": "partial",
   "theorems": [
    "C179_type_partial",
    "C179_rar_refuted",
    "C179_capital_refuted"
   ],
   "note": "False of the code for rar, whose type has two slashes, and for extensions in capital letters, which get the default type. Proved for 50 extensions."
  },
  {
   "property": "C180",
   "status": "partial",
   "theorems": [
    "C180_server_one_each",
    "C180_client_one_each",
    "C180_server_refuted",
    "C180_client_refuted",
    "C180_addresses_one_each",
    "C180_addresses_refuted",
    "C180_zone_bounded"
   ],
   "note": "False of the code for streams and addresses: nothing removes an entry while the tunnel or the program goes on. Proved: one entry for each stream number and each address, none other; a zone stays within its configured number."
  },
  {
   "property": "C181",
   "status": "partial",
   "theorems": [
    "C181_server_queues",
    "C181_client_queues",
    "C181_server_in_partial",
    "C181_client_in",
    "C181_server_out_refuted",
    "C181_client_out_refuted",
    "C181_refused_refuted",
    "C181_bridge_refuted",
    "C181_read_refuted",
    "C181_write_refuted"
   ],
   "note": "False of the code for what goes out through a tunnel, for a peer that was refused, for bridges and for streams: any amount is taken and kept. Proved: the queues of both ends and the bytes waiting to be decoded are bounded."
  },
  {
   "property": "C182",
   "status": "partial",
   "theorems": [
    "C182_passes_on",
    "C182_serves",
    "C182_clients_kept",
    "C182_numbers",
    "C182_visitors_refuted"
   ],
   "note": "False of the code for visitors of an instance that names an upper server: its visitor ports are open and every visitor is closed unserved."
  },
  {
   "property": "C183",
   "status": "partial",
   "theorems": [
    "C183_sent",
    "C183_read",
    "C183_flags",
    "C183_strict_refuted"
   ],
   "note": "False of the code in one point: the content of a message may go beyond its announced length into the bytes of the next one, and unknown codes of header changes are taken as replacements. Proved: the exact bytes of every message, and exactly which buffers are read as which message."
  },
  {
   "property": "C184",
   "status": "partial",
   "theorems": [
    "C184_served",
    "C184_inside_partial",
    "C184_missing_refuted"
   ],
   "note": "False of the code: with --path404 a missing file is answered with 200. The rest is proved for paths without a percent sign; that nothing outside is shown, for paths without two dots in a row."
  },
  {
   "property": "C185",
   "status": "partial",
   "theorems": [
    "C185_passed_partial",
    "C185_closed_refuted"
   ],
   "note": "False of the code: a request that finds the kept connection closed is answered with 404 and not passed on. The rest is proved whenever the latest result for the address is not between thirty and sixty seconds old."
  },
  {
   "property": "C186",
   "status": "partial",
   "theorems": [
    "C186_linked_partial",
    "C120_case_refuted"
   ],
   "note": "False of the code for modes that are not in lower case. The rest is proved whenever the latest result for the address is not between thirty and sixty seconds old."
  },
  {
   "property": "C187",
   "status": "partial",
   "theorems": [
    "C187_needs_login_partial",
    "C187_admitted",
    "C187_udp",
    "C187_server_refuted",
    "C187_half_refuted",
    "C36_dials_refuted"
   ],
   "note": "False of the code with --server, with only one of --user and --pass, and for the connection to the target of an HTTP request, which is made before the header is looked at. The rest is proved."
  },
  {
   "property": "C188",
   "status": "partial",
   "theorems": [
    "C188_bytes",
    "C188_back_partial",
    "C188_needs_login_partial",
    "C188_admitted",
    "C36_dials_refuted"
   ],
   "note": "Missing: answers when the client end drops pieces on a full queue (C11), and the connection to the target of an HTTP request, which is made before the header is looked at. The rest is proved for streams that are asked for before they are used."
  },
  {
   "property": "C189",
   "status": "proved",
   "theorems": [
    "C189_each",
    "C189_connected",
    "C189_down",
    "C189_up",
    "C189_service",
    "C189_visitor",
    "C189_comes_to_rest",
    "C189_arrives",
    "C189_delivered",
    "C189_requests"
   ],
   "note": ""
  },
  {
   "property": "C190",
   "status": "partial",
   "theorems": [
    "C190_line_partial",
    "C190_file",
    "C190_status_refuted",
    "C190_one_line",
    "C190_who",
    "C190_all_partial",
    "C190_forged_refuted"
   ],
   "note": "False of the code for the status, the level and values with blanks; the line is given exactly for every request."
  },
  {
   "property": "C191",
   "status": "partial",
   "theorems": [
    "C191_listing_partial",
    "C191_below",
    "C191_others_refuted",
    "C191_file_refuted",
    "C191_own_root_refuted",
    "C191_exact"
   ],
   "note": "False of the code for all answers but lists of directories, and for these unless the root is that of the server. Proved: exactly which answers get which limit. How a limited body is paced is in wenmeng and not modelled."
  },
  {
   "property": "C192",
   "status": "partial",
   "theorems": [
    "C192_in_order",
    "C192_served_partial",
    "C192_starved_refuted",
    "C192_failing_refuted",
    "C192_alone",
    "C192_not_mixed",
    "C192_own_clients",
    "C192_udp_starved_refuted",
    "C192_udp_read_partial"
   ],
   "note": "False of the code: a busy or failing first port starves the others of its section. The rest is proved. That select_all asks its futures in order is taken from its implementation in futures 0.3."
  }
 ]
}