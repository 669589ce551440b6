{
 "claims": [
  {
   "property": "C01",
   "status": "proved",
   "theorems": [
    "C01_roundtrip",
    "C01_new_is_api"
   ],
   "note": "All API messages; serialization total."
  },
  {
   "property": "C02",
   "status": "proved",
   "theorems": [
    "C02_accepts_exactly_valid_frames",
    "C02_canonical",
    "C02_no_panic"
   ],
   "note": "All byte strings."
  },
  {
   "property": "C03",
   "status": "proved",
   "theorems": [
    "C03_layout",
    "C03_decoder_layout"
   ],
   "note": "Against an independent offset table (S_Wire.v)."
  },
  {
   "property": "C04",
   "status": "proved",
   "theorems": [
    "C04_knock_token_meaning",
    "C04_response_token_meaning",
    "C04_verdict_only_for_the_right_operation",
    "C04_response_token_binds_all_fields",
    "C04_knock_token_binds_all_fields",
    "C04_knock_token_is_no_response_token"
   ],
   "note": "For every MAC function; token reuse for other fields implies an explicit MAC collision."
  },
  {
   "property": "C05",
   "status": "proved",
   "theorems": [
    "C05_honest_knock_verifies",
    "C05_honest_response_verifies",
    "C05_hmac_output"
   ],
   "note": "For every MAC with 32-byte output; HMAC-SHA3-256 is shown to be one."
  },
  {
   "property": "C06",
   "status": "proved",
   "theorems": [
    "C06_receive_any_segmentation",
    "C06_receive_completes",
    "C06_send_any_short_writes",
    "C06_send_completes",
    "C06_closed_socket_is_dead",
    "C06_control_receive_completes",
    "C06_fw_message_transfer",
    "C06_fw_receive_outcome",
    "C06_control_receive_outcome",
    "C06_control_message_transfer"
   ],
   "note": "framing loops of the control stream and the firewall socket, all segmentations, short reads/writes and spurious wakeups"
  },
  {
   "property": "C07",
   "status": "proved",
   "theorems": [
    "C07_open_only_after_full_authentication"
   ],
   "note": "All executions of the session program, all configurations with 32-byte keys, every MAC function."
  },
  {
   "property": "C08",
   "status": "proved",
   "theorems": [
    "C08_opens_what_is_granted",
    "C08_at_most_one_request"
   ],
   "note": "All executions; the granting resource, transport, user and address are named in the statement."
  },
  {
   "property": "C09",
   "status": "proved",
   "theorems": [
    "C09_silent_without_valid_knock",
    "C09_full_auth_no_go_away",
    "C09_always_answers",
    "C09_basic_auth_answers",
    "C09_full_auth_answers"
   ],
   "note": "All executions, one theorem per policy direction."
  },
  {
   "property": "C10",
   "status": "proved",
   "theorems": [
    "C10_message_discipline",
    "C10_come_in_only_after_ack",
    "C10_go_away_is_last",
    "C10_success_means_opened"
   ],
   "note": "All executions."
  },
  {
   "property": "C11",
   "status": "proved",
   "theorems": [
    "C11_session_never_panics"
   ],
   "note": "All executions under a non-degenerate random generator and 32-byte keys / resources with a transport (what the loader guarantees)."
  },
  {
   "property": "C12",
   "status": "proved",
   "theorems": [
    "C12_legitimate_knock_succeeds"
   ],
   "note": "Every interleaving of the client command (one address family) and a server session over loss-free channels; termination bound included."
  },
  {
   "property": "C13",
   "status": "proved",
   "theorems": [
    "C13_bounded_time"
   ],
   "note": "Bound of 3T before the final message, 4T in total, at most ten external calls. Waits for the firewall daemon are not bounded by the code."
  },
  {
   "property": "C14",
   "status": "proved",
   "theorems": [
    "C14_agreement",
    "C14_injective",
    "C14_recent"
   ],
   "note": "Any number of sessions and clients, any interleaving and any environment; cryptographic assumptions (unforgeable, distinct and unpredictable challenges) are hypotheses about the execution, shown satisfiable with HMAC-SHA3-256."
  },
  {
   "property": "C15",
   "status": "partial",
   "theorems": [
    "C15_opened_address_is_the_holders_refuted",
    "C15_without_relay_partial"
   ],
   "note": "REFUTED in general: C15_..._refuted gives a relay execution satisfying all cryptographic assumptions that opens the port for the relay's address. Proved without relaying (_partial)."
  },
  {
   "property": "C16",
   "status": "proved",
   "theorems": [
    "C16_success_means_full_handshake",
    "C16_only_own_messages",
    "C16_unexpected_is_an_error",
    "C16_never_panics"
   ],
   "note": "All executions of one knock, every MAC and literal-address parser."
  },
  {
   "property": "C17",
   "status": "proved",
   "theorems": [
    "C17_one_transport",
    "C17_connects_as_selected"
   ],
   "note": "All options and configurations."
  },
  {
   "property": "C18",
   "status": "proved",
   "theorems": [
    "C18_address_modes"
   ],
   "note": "All option combinations and environments; the outcome relation is in S_Client.v."
  },
  {
   "property": "C19",
   "status": "proved",
   "theorems": [
    "C19_resolution",
    "C19_unencrypted_last"
   ],
   "note": "All options, hosts, lookup results; lookups themselves are opaque oracles."
  },
  {
   "property": "C20",
   "status": "proved",
   "theorems": [
    "C20_fw_roundtrip",
    "C20_fw_open_roundtrip",
    "C20_fw_reply_roundtrip",
    "C20_fw_reply_bytes",
    "C20_fw_decode_total"
   ],
   "note": "All messages, all addresses, all byte strings."
  },
  {
   "property": "C21",
   "status": "proved",
   "theorems": [
    "C21_only_valid_requests_have_effect",
    "C21_valid_requests_are_served"
   ],
   "note": "All histories of starts, messages (arbitrary bytes), maintenance runs, shutdowns and foreign changes of other chains, with arbitrary nft failures and hash map orders; nft batches are atomic and report their status correctly. "
  },
  {
   "property": "C22",
   "status": "proved",
   "theorems": [
    "C22_chain_mirrors_leases",
    "C22_other_chains_untouched",
    "C22_leases_are_distinct"
   ],
   "note": "All histories of starts, messages (arbitrary bytes), maintenance runs, shutdowns and foreign changes of other chains, with arbitrary nft failures and hash map orders; nft batches are atomic and report their status correctly. "
  },
  {
   "property": "C23",
   "status": "proved",
   "theorems": [
    "C23_packet_accepted_iff_control_or_live_grant",
    "C23_lease_iff_live_grant"
   ],
   "note": "All histories of starts, messages (arbitrary bytes), maintenance runs, shutdowns and foreign changes of other chains, with arbitrary nft failures and hash map orders; nft batches are atomic and report their status correctly. Non-decreasing clock. Packets are judged by an independent meaning of rule expressions; address texts denote the address they are the canonical text of."
  },
  {
   "property": "C24",
   "status": "proved",
   "theorems": [
    "C24_not_removed_before_expiry",
    "C24_removed_after_expiry",
    "C24_maintenance_removes_exactly_the_expired"
   ],
   "note": "All histories of starts, messages (arbitrary bytes), maintenance runs, shutdowns and foreign changes of other chains, with arbitrary nft failures and hash map orders; nft batches are atomic and report their status correctly. Non-decreasing clock."
  },
  {
   "property": "C25",
   "status": "proved",
   "theorems": [
    "C25_unacknowledged_changes_nothing",
    "C25_acknowledged_is_effective",
    "C25_maintenance_is_all_or_nothing",
    "C25_maintenance_needs_no_rebuild",
    "C25_only_granted_packets_accepted"
   ],
   "note": "All histories of starts, messages (arbitrary bytes), maintenance runs, shutdowns and foreign changes of other chains, with arbitrary nft failures and hash map orders; nft batches are atomic and report their status correctly. C25_maintenance_needs_no_rebuild was added after a wrong program whose targeted deletion always failed met all other statements."
  },
  {
   "property": "C26",
   "status": "proved",
   "theorems": [
    "C26_start_leaves_only_control_rules",
    "C26_shutdown_empties_chain",
    "C26_nothing_accepted_after_shutdown"
   ],
   "note": "All kernel rule sets."
  },
  {
   "property": "C27",
   "status": "proved",
   "theorems": [
    "C27_comments_are_unique",
    "C27_removal_is_exact",
    "C27_address_texts_are_unique"
   ],
   "note": "All addresses, ports and transports; text form of IPv6 addresses as in the Rust standard library."
  },
  {
   "property": "C28",
   "status": "proved",
   "theorems": [
    "C28_receive_returns_oldest_own_datagram",
    "C28_deliveries_are_subsequence_of_arrivals",
    "C28_nothing_lost"
   ],
   "note": "Every call of the dispatcher is one step of an arbitrary schedule; absence of loss is proved for peers without close or refused datagram."
  },
  {
   "property": "C29",
   "status": "proved",
   "theorems": [
    "C29_memory_is_bounded",
    "C29_kept_datagrams_are_bounded"
   ],
   "note": "Bounds on the state and, independently, on what the history says is kept."
  },
  {
   "property": "C30",
   "status": "partial",
   "theorems": [
    "C30_udp_traffic_cannot_crash_refuted",
    "C30_no_panic_without_overflow_partial"
   ],
   "note": "REFUTED: for every configured maximum five datagrams of one peer before its session receives one, followed by the end of the session, make the server abort (the overflow path forgets to subtract the queued datagrams). Strongest true variant proved: no panic in any history without queue overflow."
  },
  {
   "property": "C31",
   "status": "partial",
   "theorems": [
    "C31_foreign_datagram_harmless_refuted",
    "C31_receive_failures_partial"
   ],
   "note": "REFUTED: a short datagram of one peer makes the pending receive of another session fail. Proved: the exact list of reasons for which a receive fails."
  },
  {
   "property": "C32",
   "status": "partial",
   "theorems": [
    "C32_accepted_once_refuted",
    "C32_accept_returns_new_peers_partial",
    "C32_accepted_again_only_after_reset_partial",
    "C32_one_open_session_without_overflow_partial",
    "C32_closed_session_is_dead"
   ],
   "note": "REFUTED: after a queue overflow a peer is accepted again while its first session is open. Proved: accept only returns peers not returned since the last reset, and without overflow a peer has at most one open session."
  },
  {
   "property": "C33",
   "status": "proved",
   "theorems": [
    "C33_printed_id_parses",
    "C33_parser_exact"
   ],
   "note": "Round trip of every identifier and exactness of the parser (both directions), no panic."
  },
  {
   "property": "C34",
   "status": "proved",
   "theorems": [
    "C34_genkey_line",
    "C34_genkey_line_loads"
   ],
   "note": "The printed line is an option line with exactly this user and key; inserted anywhere in the [KEYS] section of any file that loads, it adds exactly this key and changes nothing else."
  },
  {
   "property": "C35",
   "status": "proved",
   "theorems": [
    "C35_loaded_keys",
    "C35_keys_sane",
    "C35_invalid_key_rejected"
   ],
   "note": "Loaded keys are exactly those of the file; sane; an invalid entry rejects the file and leaves the old configuration."
  },
  {
   "property": "C36",
   "status": "proved",
   "theorems": [
    "C36_loaded_resources",
    "C36_resource_sane",
    "C36_who_may_use",
    "C36_invalid_resource_rejected",
    "C36_shared_port_rejected"
   ],
   "note": "Loaded resources are exactly those of the file; port, transports, users as written; shared ports and invalid entries are rejected."
  },
  {
   "property": "C37",
   "status": "proved",
   "theorems": [
    "C37_failed_load_changes_nothing",
    "C37_server_rejects_bad_file",
    "C37_client_ignores_unreadable"
   ],
   "note": "Every failed load returns the old configuration; the server rejects every file without a meaning. The client deliberately ignores a file it cannot read (C37_client_ignores_unreadable)."
  },
  {
   "property": "C38",
   "status": "proved",
   "theorems": [
    "C38_order_independent",
    "C38_resource_by_port"
   ],
   "note": "For any two iteration orders (arbitrary permutation oracles)."
  },
  {
   "property": "C39",
   "status": "partial",
   "theorems": [
    "C39_duplicates_rejected_refuted",
    "C39_duplicates_rejected_partial",
    "C39_repeated_section_rejected_partial"
   ],
   "note": "REFUTED in general: two definitions with the same spelling in one section are accepted and the last one wins (C39_duplicates_rejected_refuted). Proved: different spellings of one identifier are rejected; a repeated section is rejected (_partial)."
  },
  {
   "property": "C40",
   "status": "proved",
   "theorems": [
    "C40_lines",
    "C40_ini_parser",
    "C40_ini_file",
    "C40_utf8",
    "C40_one_value"
   ],
   "note": "Exact meaning of the ini parser for all texts, including UTF-8 decoding and line splitting."
  },
  {
   "property": "C41",
   "status": "partial",
   "theorems": [
    "C41_limit_refuted",
    "C41_one_handler_per_connection_partial",
    "C41_udp_sessions_limited_partial"
   ],
   "note": "REFUTED (C41_limit_refuted): the permit is dropped right after the handler was spawned, so any number of handlers runs at once. Proved: handlers only for accepted connections, one each; the UDP dispatcher limits open UDP sessions while no queue overflows."
  },
  {
   "property": "C42",
   "status": "proved",
   "theorems": [
    "C42_handled_connections",
    "C42_peer_check",
    "C42_only_letmeind",
    "C42_letmeind_accepted",
    "C42_no_panic"
   ],
   "note": "All credentials, PID file contents and account databases; exact in both directions, and for all runs of the daemon."
  },
  {
   "property": "C43",
   "status": "partial",
   "theorems": [
    "C43_keeps_serving_refuted",
    "C43_rejection_harmless_refuted",
    "C43_why_it_stops_partial",
    "C43_keeps_serving_partial",
    "C43_handlers_independent"
   ],
   "note": "REFUTED for both daemons: a failing accept ends letmeind (reachable by exhausting descriptors, see C41), a rejected peer ends letmeinfwd. Proved: only signals, accept errors and maintenance errors stop a daemon; otherwise the next connection is served whatever the sessions do."
  },
  {
   "property": "C44",
   "status": "partial",
   "theorems": [
    "C44_only_configured",
    "C44_bound_exactly",
    "C44_binds_if_possible",
    "C44_right_kind",
    "C44_duplicates_rejected",
    "C44_sockets_exact",
    "C44_no_panic",
    "C44_listens",
    "C44_every_transport_refuted",
    "C44_systemd_exactly_partial",
    "C44_fwd_removes_only_sockets",
    "C44_fwd_listener_exactly",
    "C44_fwd_no_panic",
    "C44_fwd_right_kind"
   ],
   "note": "All socket sets and configurations. REFUTED is only 'exactly the configured transports' with systemd sockets: a configured transport without a socket is not served (C44_every_transport_refuted); the rest is proved in full."
  },
  {
   "property": "C45",
   "status": "partial",
   "theorems": [
    "C45_filter_meaning",
    "C45_only_listed_features",
    "C45_letmeind_exact",
    "C45_letmein_exact",
    "C45_letmeinfwd_exact",
    "C45_letmeind_confined",
    "C45_filters_exist",
    "C45_refused_filter_is_error",
    "C45_modes",
    "C45_log_logs_what_kill_kills",
    "C45_adding_never_forbids_refuted",
    "C45_adding_never_forbids_partial",
    "C45_filter_exists",
    "C45_features_exact"
   ],
   "note": "Exact call lists of all three programs for every target, every call and arguments; the meaning of the filter for every feature list. REFUTED: adding a feature can forbid a call (C45_adding_never_forbids_refuted); proved for lists without both forms of fcntl/setsockopt."
  },
  {
   "property": "C46",
   "status": "proved",
   "theorems": [
    "C46_lookup_exact",
    "C46_never_panics",
    "C46_malformed_is_error"
   ],
   "note": "All file contents and names, exact in both directions."
  },
  {
   "property": "C47",
   "status": "proved",
   "theorems": [
    "C47_accepted_packet_has_authenticated_session",
    "C47_accepted_packet_was_authenticated",
    "C47_accepted_packet_comes_from_key_holder"
   ],
   "note": "All interleavings of sessions, clients, attacker, firewall daemon and foreign rule changes. The unix socket is faithful (only letmeind can talk to the firewall daemon, C42). The two daemons may have loaded different configurations."
  },
  {
   "property": "C48",
   "status": "proved",
   "theorems": [
    "C48_random_never_degenerate",
    "C48_random_passes_good_bytes"
   ],
   "note": "All generator outputs."
  },
  {
   "property": "C49",
   "status": "proved",
   "theorems": [
    "C49_option_parsers",
    "C49_no_panic",
    "C49_control_port"
   ],
   "note": "Exactness in both directions for each option parser. Durations that are not whole seconds go through an arbitrary function (f64 parsing is an oracle)."
  },
  {
   "property": "C50",
   "status": "proved",
   "theorems": [
    "C50_firewall_daemon_never_panics"
   ],
   "note": "All histories of starts, messages (arbitrary bytes), maintenance runs, shutdowns and foreign changes of other chains, with arbitrary nft failures and hash map orders; nft batches are atomic and report their status correctly. "
  },
  {
   "property": "C51",
   "status": "proved",
   "theorems": [
    "C51_come_in_means_open"
   ],
   "note": "All executions of the composed system; faithful unix socket."
  },
  {
   "property": "C52",
   "status": "proved",
   "theorems": [
    "C52_load_exact",
    "C52_meaning_unique"
   ],
   "note": "Soundness, completeness and uniqueness of the meaning of a configuration file."
  },
  {
   "property": "C53",
   "status": "partial",
   "theorems": [
    "C53_orderly_end_refuted",
    "C53_letmeind_end_partial",
    "C53_letmeinfwd_end"
   ],
   "note": "REFUTED for letmeind: SIGTERM with an open session aborts the process (C53_orderly_end_refuted). Proved: it ends orderly exactly if no connection is open; letmeinfwd in full."
  },
  {
   "property": "C54",
   "status": "proved",
   "theorems": [
    "C54_knock_opens_the_port",
    "C54_knock_opens_the_port_from_files"
   ],
   "note": "IPv4 or IPv6 mode, user given or default. Channels lose nothing, no timeouts; nft does not fail; other sessions and maintenance run at any time."
  },
  {
   "property": "C55",
   "status": "proved",
   "theorems": [
    "C55_only_the_file_opens_ports"
   ],
   "note": "C47 composed with the exactness of the configuration loader. Same assumptions as C47."
  },
  {
   "property": "C56",
   "status": "proved",
   "theorems": [
    "C56_expired_lease_is_closed_soon",
    "C56_access_needs_a_recent_session"
   ],
   "note": "Bound: lease time + 5 s maintenance period + scheduling delay (a parameter). Assumes the maintenance task runs on the schedule of time::interval and the daemon is in its run phase."
  },
  {
   "property": "C57",
   "status": "proved",
   "theorems": [
    "C57_letmeind_confined",
    "C57_letmeinfwd_confined",
    "C57_on_any_platform_refuted"
   ],
   "note": "For targets on which seccomp is supported. C57_on_any_platform_refuted: elsewhere the mode kill only prints a warning and the daemon serves unconfined."
  },
  {
   "property": "C58",
   "status": "partial",
   "theorems": [
    "C58_failed_start_changes_nothing_refuted",
    "C58_start_opens_control_port_only_partial"
   ],
   "note": "REFUTED (C58_failed_start_changes_nothing_refuted): a start that fails after NftFirewall::new leaves the control port rules in the chain (and the old rules of the chain are gone). Proved: the firewall is unchanged, or only the control port is open in the chain and other chains are unchanged."
  },
  {
   "property": "C59",
   "status": "proved",
   "theorems": [
    "C59_socket_is_born_protected",
    "C59_socket_is_protected_while_serving"
   ],
   "note": "Not in the test mode of debug builds. A socket from systemd is protected by the systemd unit, which is not modelled."
  },
  {
   "property": "C60",
   "status": "proved",
   "theorems": [
    "C60_letmeind_is_recognised"
   ],
   "note": ""
  },
  {
   "property": "C61",
   "status": "partial",
   "theorems": [
    "C61_ready_means_serving_refuted",
    "C61_letmeind_ready_partial",
    "C61_letmeinfwd_ready_partial"
   ],
   "note": "REFUTED (C61_ready_means_serving_refuted). Proved: ready implies a valid configuration and existing listeners (letmeind), an initialised firewall and a socket of systemd (letmeinfwd)."
  },
  {
   "property": "C62",
   "status": "proved",
   "theorems": [
    "C62_letmeind_starts",
    "C62_letmeinfwd_starts",
    "C62_start_never_panics"
   ],
   "note": "The case of letmeind with systemd sockets is covered by C44."
  },
  {
   "property": "C63",
   "status": "proved",
   "theorems": [
    "C63_command_line",
    "C63_only_named_services",
    "C63_client_confined",
    "C63_client_start_never_panics"
   ],
   "note": "Numbers and flags of the command line are parsed by clap, which is not modelled."
  },
  {
   "property": "C64",
   "status": "proved",
   "theorems": [
    "C64_parser_exact",
    "C64_text_denotes_one_address",
    "C64_printed_address_denotes_itself",
    "C64_client_goes_to_the_given_address",
    "C64_knock_to_literal",
    "C64_mode_of_literal",
    "C64_family_options"
   ],
   "note": "The parser and printer are models of the Rust standard library (core::net), written from its documentation and source as known."
  },
  {
   "property": "C65",
   "status": "proved",
   "theorems": [
    "C65_letmeind_serves_its_configuration",
    "C65_letmeinfwd_serves_its_configuration",
    "C65_letmeind_footprint",
    "C65_letmeinfwd_footprint"
   ],
   "note": "A path is its run directory and the part below it; other spellings of a path count as other paths."
  },
  {
   "property": "C66",
   "status": "partial",
   "theorems": [
    "C66_receive_is_woken_partial",
    "C66_receive_is_woken_refuted",
    "C66_next_pass_repairs"
   ],
   "note": "REFUTED (C66_receive_is_woken_refuted). Proved: as long as no receive fails that was woken by the daemon's own notification (receives woken by the socket may fail, short of an overflow), a receive whose datagram is there waits for at most as many wake-ups as there are receives in front of it and somebody can always go on. After failures other than an overflow, the next pass of any task that neither fails nor accepts re-establishes this (C66_next_pass_repairs). tokio: single thread, fair mutex, remembered readiness cleared only by a read that would block."
  },
  {
   "property": "C67",
   "status": "partial",
   "theorems": [
    "C67_accept_is_woken_partial",
    "C67_accept_is_woken_refuted",
    "C67_socket_is_read"
   ],
   "note": "REFUTED (C67_accept_is_woken_refuted). Proved: as long as no accept fails, no receive that was woken by the daemon's own notification fails, and at most one new peer at a time is waiting, the accepting task can always go on and then accepts."
  },
  {
   "property": "C68",
   "status": "proved",
   "theorems": [
    "C68_any_segmentation",
    "C68_any_segmentation_from_files"
   ],
   "note": "IPv4 or IPv6 mode. The streams lose nothing and do not fail, no timeouts; nft does not fail. read_is_loop and write_is_loop tie the steps to the loops of M_Stream."
  },
  {
   "property": "C69",
   "status": "proved",
   "theorems": [
    "C69_families_that_work"
   ],
   "note": "Message level, as C12; a family that is not reachable fails when its connection is made. At most 36 steps and no state without a next step before the end, for all four combinations of options and for literals and names."
  },
  {
   "property": "C70",
   "status": "proved",
   "theorems": [
    "C70_value",
    "C70_exact",
    "C70_monotone",
    "C70_out_of_range",
    "C70_only_numbers",
    "C70_no_panic",
    "C70_in_the_file"
   ],
   "note": "Texts of at most 60000 characters. The f64 parser of the standard library is modelled by its documented result (correct rounding, half to even), its saturating exponent included; Duration::try_from_secs_f64 is modelled bit by bit."
  },
  {
   "property": "C71",
   "status": "proved",
   "theorems": [
    "C71_hash",
    "C71_mac",
    "C71_accepted_tokens",
    "C71_generated_tokens"
   ],
   "note": "The crates hmac and sha3 are not part of the repository; M_Sha3.v models them with 64-bit lanes and is proved equal to a bit-level specification after the text of the standards. Keys up to the block size (letmein keys have 32 bytes)."
  },
  {
   "property": "C72",
   "status": "proved",
   "theorems": [
    "C72_udp_knock_succeeds",
    "C72_udp_knock_succeeds_from_files"
   ],
   "note": "IPv4 or IPv6 mode. The network loses and duplicates nothing (order is free), no timeouts, no other UDP peer (with others C66 and C67 show lost wake-ups); nft does not fail. The unix socket carries whole messages as in C54."
  },
  {
   "property": "C73",
   "status": "proved",
   "theorems": [
    "C73_strangers_see_no_configuration"
   ],
   "note": "One session, all bytes and events; the time a session takes between its calls (side channels) is not modelled. A replayed knock of a real user is not a stranger."
  },
  {
   "property": "C74",
   "status": "proved",
   "theorems": [
    "C74_server_uses_keys_only_for_tokens",
    "C74_client_uses_keys_only_for_tokens"
   ],
   "note": "Server session and knock command; the text of errors is included for both. What the configuration loader says about a file is in C78; what gen-key prints, and the memory of the processes, are outside."
  },
  {
   "property": "C75",
   "status": "proved",
   "theorems": [
    "C75_every_connection_once_in_order",
    "C75_waiting_connections_are_served",
    "C75_why_it_ends"
   ],
   "note": "Server::accept with its two join handles and the handler task as a transition system (M_Accept.v), which refines M_Daemon.v. The kernel queue of TCP connections is FIFO; when the UDP dispatcher finds a peer is the subject of C66/C67. A TCP connection whose TCP_NODELAY cannot be set is dropped and ends letmeind."
  },
  {
   "property": "C76",
   "status": "proved",
   "theorems": [
    "C76_tcp_knock_succeeds_among_others",
    "C76_tcp_knock_succeeds_among_others_from_files"
   ],
   "note": "C54 composed with the accepting tasks of C75. Fairness: the theorem says that the knock or letmeind can always go on and how many steps the knock takes; that the select is not always won by UDP peers is left to tokio (random choice)."
  },
  {
   "property": "C77",
   "status": "proved",
   "theorems": [
    "C77_udp_knock_succeeds_among_others",
    "C77_udp_knock_succeeds_among_others_from_files"
   ],
   "note": "C54 composed with the accepting tasks of C75 and the UDP dispatcher of C28-C32 with all its sessions. When tasks are woken is not part of it (C66, C67, C72). Others must keep to the limits: without them C30 and C31 show how one peer can stop the dispatcher or a receive."
  },
  {
   "property": "C78",
   "status": "proved",
   "theorems": [
    "C78_one_flaw",
    "C78_report_hides_keys",
    "C78_malformed_says_only_the_path",
    "C78_report_iff_rejected"
   ],
   "note": "The texts of the errors, not their layout on the terminal; lower-casing of quoted words and the printing of paths are arbitrary functions. The ini parser quotes the offending line in its error, but Config::load drops that error."
  },
  {
   "property": "C79",
   "status": "proved",
   "theorems": [
    "C79_tcp_bytes_among_others",
    "C79_tcp_bytes_among_others_from_files"
   ],
   "note": "C68 composed with the accepting tasks of C75: every execution projects to one of C68, so the bound of 2166 steps and the end are those of C68. Fairness as in C76."
  },
  {
   "property": "C80",
   "status": "proved",
   "theorems": [
    "C80_tcp_knock_ends",
    "C80_tcp_knock_ends_from_files",
    "C80_fair_executions_exist",
    "C80_fair_executions_exist_from_files"
   ],
   "note": "Liveness for the system of C79. Assumed: weak fairness for the knock as a whole, the kernel queue and the handler task, strong fairness for the TCP branch of the select (the tokio select! of Server::accept picks at random). C80_fair_executions_exist shows that the assumptions can be met from every reachable state."
  },
  {
   "property": "C81",
   "status": "proved",
   "theorems": [
    "C81_nft_reads_the_commands",
    "C81_json_has_one_reading",
    "C81_ruleset_changes_are_documents",
    "C81_lease_document"
   ],
   "note": "The reader is any program that follows RFC 8259 and libnftables-json(5), both specified in S_Json.v. The commands themselves are the subject of C22-C27. The names of fields that the crate nftables writes are from its documentation (it is not in /repo)."
  },
  {
   "property": "C82",
   "status": "proved",
   "theorems": [
    "C82_udp_knock_ends",
    "C82_udp_knock_ends_from_files",
    "C82_fair_executions_exist"
   ],
   "note": "The fairness assumptions are in S_CrowdFair.v and each is about an observable kind of step. Weak fairness: the knock itself, the delivery of the client's datagrams, the socket handler task. Strong fairness: reading the socket, the accept task picking the client from the map, the UDP branch of the select. C82_fair_executions_exist shows that every finite execution extends to a fair one. The scheduler of tokio, the network and the hash order of the map are not modelled: that they are fair is the assumption. That the tasks are woken when there is something to do is C66 and C67."
  },
  {
   "property": "C83",
   "status": "proved",
   "theorems": [
    "C83_simultaneous_knocks_succeed",
    "C83_nobody_blocks_another",
    "C83_files_make_legitimate_clients"
   ],
   "note": "channels that lose nothing, as in C54; the accepting side with its limits is C77-C82"
  },
  {
   "property": "C84",
   "status": "proved",
   "theorems": [
    "C84_only_live_grants_are_open",
    "C84_only_granted_is_open",
    "C84_maintenance_repairs",
    "C84_maintenance_loses_nothing",
    "C84_no_panic",
    "C84_covers_undisturbed_histories"
   ],
   "note": "others may take rules out of the chain, not put rules into it (see C85)"
  },
  {
   "property": "C85",
   "status": "partial",
   "theorems": [
    "C85_acknowledged_is_open_refuted",
    "C85_nothing_is_repaired_without_an_expired_lease",
    "C85_restored_rule_is_removed_refuted",
    "C85_first_request_opens_partial",
    "C85_acknowledged_keeps_open_partial"
   ],
   "note": "REFUTED: C85_acknowledged_is_open_refuted (a refreshed lease is acknowledged although its rule was flushed), C85_nothing_is_repaired_without_an_expired_lease (the control port stays closed), C85_restored_rule_is_removed_refuted. Proved: a first request opens and an acknowledgement never closes anything"
  },
  {
   "property": "C86",
   "status": "proved",
   "theorems": [
    "C86_only_live_grants_are_open",
    "C86_only_granted_is_open",
    "C86_no_panic",
    "C86_listing_finds_the_rule",
    "C86_uninterrupted_run",
    "C86_changes_elsewhere_do_not_matter",
    "C86_covers_histories_with_loss"
   ],
   "note": "others may take rules out of the chain between the calls, not put rules into it (see C87)"
  },
  {
   "property": "C87",
   "status": "partial",
   "theorems": [
    "C87_reload_is_noticed_refuted",
    "C87_fresh_handles_are_noticed_partial"
   ],
   "note": "REFUTED: C87_reload_is_noticed_refuted (handles of the listing denote other rules after a reload that counts anew; the ended lease stays open, a live one is closed, success is reported). Proved: a reload that gives new handles is noticed and repaired"
  },
  {
   "property": "C88",
   "status": "proved",
   "theorems": [
    "C88_comments_are_short_and_plain"
   ],
   "note": ""
  },
  {
   "property": "C89",
   "status": "proved",
   "theorems": [
    "C89_nothing_from_before_is_open",
    "C89_after_a_kill",
    "C89_after_a_kill_while_serving",
    "C89_a_start_closes_everything",
    "C89_no_panic"
   ],
   "note": "while no daemon runs nothing is closed either, however much time passes"
  },
  {
   "property": "C90",
   "status": "partial",
   "theorems": [
    "C90_restart_obeys_new_configuration_refuted",
    "C90_same_chain_partial",
    "C90_orderly_end_partial"
   ],
   "note": "REFUTED: C90_restart_obeys_new_configuration_refuted (the daemon was killed and the new configuration names another chain; the rules in the old chain stay). Proved: same chain, or orderly end without an nft failure"
  },
  {
   "property": "C91",
   "status": "proved",
   "theorems": [
    "C91_behind_an_open_port_is_a_knock",
    "C91_behind_a_port_left_open_is_a_knock",
    "C91_open_ports_are_for_key_holders"
   ],
   "note": "the firewall daemons all use the same chain (see C90)"
  },
  {
   "property": "C92",
   "status": "proved",
   "theorems": [
    "C92_only_later_sessions_count",
    "C92_removed_key_is_worthless"
   ],
   "note": "a request of a session that is still served with the old configuration counts with that configuration; letmeind must really be restarted, it ignores SIGHUP"
  },
  {
   "property": "C93",
   "status": "proved",
   "theorems": [
    "C93_agreement",
    "C93_one_response_one_opening",
    "C93_recent"
   ],
   "note": "assumes unforgeable tokens, distinct and unpredictable challenges, as C14"
  },
  {
   "property": "C94",
   "status": "proved",
   "theorems": [
    "C94_bounded_time",
    "C94_bounded_time_of_one_knock",
    "C94_ends"
   ],
   "note": "name lookups and TCP connects have no timeout of the program's own (those of the resolver library and the kernel apply), so their number is bounded, not their duration"
  },
  {
   "property": "C95",
   "status": "partial",
   "theorems": [
    "C95_success_means_open_refuted",
    "C95_success_means_open_partial"
   ],
   "note": "REFUTED in general: ComeIn carries no authentication, so somebody in between can report success without the server (C95_success_means_open_refuted). Proved if the client and a session exchange their messages undisturbed (loss, reordering and repetition allowed)"
  },
  {
   "property": "C96",
   "status": "proved",
   "theorems": [
    "C96_access_depends_on_own_requests_only",
    "C96_reply_depends_on_own_requests_only"
   ],
   "note": "Between runs in which the daemon stays up (no failed rebuild and no shutdown) and nft succeeds or fails alike for the address's own requests"
  },
  {
   "property": "C97",
   "status": "proved",
   "theorems": [
    "C97_files_still_load",
    "C97_other_users_unaffected",
    "C97_new_user_can_knock"
   ],
   "note": "The knock is the one of C54: nothing is lost, no timeout, nft does not fail, the daemons have been restarted with the new file"
  },
  {
   "property": "C98",
   "status": "proved",
   "theorems": [
    "C98_rules_are_as_many_as_grants",
    "C98_rules_are_bounded"
   ],
   "note": "While the daemon runs and nobody else changes its chain; after a failed maintenance run, when the daemon is about to end, expired rules may remain. An expired grant counts until the next maintenance run (C56)"
  },
  {
   "property": "C99",
   "status": "partial",
   "theorems": [
    "C99_deleting_the_line_revokes_refuted",
    "C99_file_loads_without_the_key_partial",
    "C99_other_users_unaffected_partial",
    "C99_revoked_user_opens_nothing_partial"
   ],
   "note": "REFUTED in general: if the section has two lines for the user with the same spelling, the last one counts without a warning, and deleting it brings the older key back into force (C99_deleting_the_line_revokes_refuted). Proved if no other line of the section is for the user. When an already open port closes is C92"
  },
  {
   "property": "C100",
   "status": "proved",
   "theorems": [
    "C100_layout_does_not_matter",
    "C100_knocks_stay_legitimate",
    "C100_sessions_alike",
    "C100_firewall_histories_alike",
    "C100_knocks_alike"
   ],
   "note": "Two lines of a section with the same name are not exchanged: there the last one counts (C40, C99). Error texts, which carry line contents, may differ"
  },
  {
   "property": "C101",
   "status": "proved",
   "theorems": [
    "C101_file_loads_with_the_new_key",
    "C101_other_users_unaffected",
    "C101_user_can_knock_with_the_new_key",
    "C101_only_the_new_key_opens"
   ],
   "note": "If the section has a second line for the user the claim is false, as in C99"
  },
  {
   "property": "C102",
   "status": "proved",
   "theorems": [
    "C102_file_loads_with_the_new_resource",
    "C102_file_loads_without_the_resource",
    "C102_opens_what_the_new_line_says",
    "C102_deleted_resource_is_not_opened"
   ],
   "note": "If the section has a second line for the resource with the same spelling the claim is false, as in C99"
  },
  {
   "property": "C103",
   "status": "proved",
   "theorems": [
    "C103_session_depends_on_own_lines_only",
    "C103_knock_depends_on_own_lines_only",
    "C103_other_keys_do_not_matter",
    "C103_other_resources_do_not_matter",
    "C103_firewall_reply_depends_on_own_lines_only",
    "C103_keys_do_not_matter_to_firewall",
    "C103_other_ports_do_not_matter_to_firewall"
   ],
   "note": "The timeout of the messages is the same in both (a parameter of the executions)"
  },
  {
   "property": "C104",
   "status": "proved",
   "theorems": [
    "C104_file_loads_with_one_more_resource",
    "C104_old_ports_can_still_be_opened",
    "C104_new_port_can_be_opened",
    "C104_knock_opens_the_new_port",
    "C104_opens_what_the_line_says",
    "C104_other_sessions_unaffected",
    "C104_firewall_permits_one_more_port",
    "C104_firewall_other_ports_unaffected"
   ],
   "note": ""
  }
 ]
}