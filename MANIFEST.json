{
 "claims": [
  {
   "property": "C17",
   "status": "proved",
   "theorems": [
    "C17_increment",
    "C17_compare",
    "C17_compare_zero_iff_equal",
    "C17_memcmp",
    "C17_xor"
   ],
   "note": "crate constant-time"
  },
  {
   "property": "C05",
   "status": "proved",
   "theorems": [
    "C05_no_panic",
    "C05_next_call"
   ],
   "note": "all histories of the public calls; caller obligations stated in System.valid"
  },
  {
   "property": "C06",
   "status": "proved",
   "theorems": [
    "C06_found_id_is_owned",
    "C06_peer_ids",
    "C06_live_id_is_found",
    "C06_ids_not_shared",
    "C06_resp_hello_routed",
    "C06_live_id_is_found_refuted"
   ],
   "note": "everything proved under the stated condition on drawn ids; without it completeness is refuted with a witness"
  },
  {
   "property": "C07",
   "status": "proved",
   "theorems": [
    "C07_add_peer_succeeds",
    "C07_add_peer_duplicate",
    "C07_identities_distinct",
    "C07_peers_stay"
   ],
   "note": ""
  },
  {
   "property": "C02",
   "status": "proved",
   "theorems": [
    "C02_biscuit_numbers_increase",
    "C02_no_biscuit_twice",
    "C02_replay_refused"
   ],
   "note": "all histories of one server process"
  },
  {
   "property": "C03",
   "status": "proved",
   "theorems": [
    "C03_init_hello_keeps_no_state"
   ],
   "note": ""
  },
  {
   "property": "C04",
   "status": "proved",
   "theorems": [
    "C04_retransmitted_conf_answered"
   ],
   "note": "the cache entry lives until a poll 120 s later or the next responder exchange with the peer; both conditions are spelled out in keeps_entry"
  },
  {
   "property": "C16",
   "status": "proved",
   "theorems": [
    "C16_reply_carries_counter",
    "C16_first_number",
    "C16_numbers_increase",
    "C16_nonce_drawn",
    "C16_biscuits_differ",
    "C16_consecutive_refuted"
   ],
   "note": "that the numbers on the wire are consecutive is refuted"
  },
  {
   "property": "C10",
   "status": "proved",
   "theorems": [
    "C10_sleep_hint_safe"
   ],
   "note": ""
  },
  {
   "property": "C11",
   "status": "proved",
   "theorems": [
    "C11_poll_is_fair",
    "C11_reported_in_time"
   ],
   "note": ""
  },
  {
   "property": "C12",
   "status": "proved",
   "theorems": [
    "C12_delete_key",
    "C12_no_silent_delete",
    "C12_sleep_means_clean",
    "C12_expired_is_reported"
   ],
   "note": ""
  },
  {
   "property": "C13",
   "status": "proved",
   "theorems": [
    "C13_request_is_due",
    "C13_requested_once",
    "C13_initiation_is_requested"
   ],
   "note": ""
  },
  {
   "property": "C14",
   "status": "proved",
   "theorems": [
    "C14_delay_bounds",
    "C14_retransmission",
    "C14_spacing",
    "C14_first",
    "C14_jitter_is_symmetric_refuted"
   ],
   "note": "that the jitter is symmetric around the back-off, as the constant's documentation says, is refuted"
  },
  {
   "property": "C15",
   "status": "proved",
   "theorems": [
    "C15_issued_under_young_key",
    "C15_young_key_kept",
    "C15_older_key_replaced",
    "C15_old_key_erased"
   ],
   "note": ""
  },
  {
   "property": "C08",
   "status": "partial",
   "theorems": [
    "C08_rejected_partial",
    "C08_rejected_hello",
    "C08_no_effect_refuted",
    "C08_no_effect_refuted_conf"
   ],
   "note": "the full statement is false: a RespHello or InitConf with a broken seal, a forged acknowledgement and a forged CookieReply are refused with an effect; what can change is bounded by C08_rejected_partial"
  },
  {
   "property": "C09",
   "status": "partial",
   "theorems": [
    "C09_key_changes_partial",
    "C09_key_changes_refuted"
   ],
   "note": "the full statement is false: a refused RespHello can change the key without notice"
  },
  {
   "property": "C23",
   "status": "proved",
   "theorems": [
    "C23_init_hello",
    "C23_init_conf"
   ],
   "note": ""
  },
  {
   "property": "C20",
   "status": "proved",
   "theorems": [
    "C20_only_cookies_cost",
    "C20_served_as_usual",
    "C20_live_secret_kept"
   ],
   "note": ""
  },
  {
   "property": "C21",
   "status": "proved",
   "theorems": [
    "C21_cookie_exchange"
   ],
   "note": "assumes functional correctness of the AEAD, and that no drawn session id repeats the one in use (as in C06)"
  },
  {
   "property": "C22",
   "status": "partial",
   "theorems": [
    "C22_accepted_cookie",
    "C22_failed_reply_partial",
    "C22_failed_reply_refuted"
   ],
   "note": "the full statement is false: a refused CookieReply overwrites the cookie"
  },
  {
   "property": "C46",
   "status": "partial",
   "theorems": [
    "C46_forged_ack_partial",
    "C46_forged_ack_refuted"
   ],
   "note": "the full statement is false: a forged EmptyData with a large counter blocks the genuine one"
  },
  {
   "property": "C48",
   "status": "proved",
   "theorems": [
    "C48_retransmission_repeats"
   ],
   "note": ""
  },
  {
   "property": "C24",
   "status": "proved",
   "theorems": [
    "C24_malformed_refused"
   ],
   "note": "Any reachable state, any bytes. Under load only the two cookie secrets may differ, and only for a packet that starts like an InitHello."
  },
  {
   "property": "C25",
   "status": "proved",
   "theorems": [
    "C25_init_hello_layout",
    "C25_resp_hello_layout",
    "C25_init_conf_layout",
    "C25_empty_data_layout",
    "C25_biscuit_layout",
    "C25_cookie_reply_layout",
    "C25_serialise",
    "C25_type_codes",
    "C25_sent_messages_well_sized"
   ],
   "note": "Each layout theorem is an equivalence between parsing a buffer and the buffer being the concatenation of fields with the documented sizes; the last theorem covers every message handed out in any history."
  },
  {
   "property": "C26",
   "status": "proved",
   "theorems": [
    "C26_check",
    "C26_sent_messages_sealed",
    "C26_sent_passes_check",
    "C26_accepted_messages_sealed",
    "C26_cookie_field_ignored"
   ],
   "note": "Sent messages (any call, any history, retransmissions included) are sealed for the peer; accepted ones are sealed for the server; the cookie field has no influence without load."
  },
  {
   "property": "C01",
   "status": "proved",
   "theorems": [
    "C01_honest_handshake"
   ],
   "note": "Assumes functional correctness of the primitives (Prims.correct). Between the messages both servers may do anything that keeps the handshake pending; the conditions that fail only by an id collision or a forgery are spelled out in the statement."
  },
  {
   "property": "C45",
   "status": "proved",
   "theorems": [
    "C45_output_key_binding",
    "C45_osk_uses_configured_separator",
    "C45_wireguard_labels"
   ],
   "note": "Equal output keys force equal chaining key, hash version and labels, or exhibit a hash collision (or an all-zero hash value) among the very calls that computed the two keys."
  },
  {
   "property": "C49",
   "status": "proved",
   "theorems": [
    "C49_peer_ids",
    "C49_domains_separate",
    "C49_session_keys",
    "C49_directions_separate"
   ],
   "note": "The labels of the other uses (mac, cookies, biscuits, chaining key) appear in the statements of C02, C20, C22, C23, C26 through Spec.domain."
  },
  {
   "property": "C50",
   "status": "proved",
   "theorems": [
    "C50_initiator",
    "C50_responder_hello",
    "C50_responder_conf",
    "C50_responder"
   ],
   "note": "The transcript is spelled out in PTranscript.transcript from message fields and labels only. The responder side assumes functional correctness of the primitives; its only escape clause is a biscuit that also opens under the other protocol version."
  },
  {
   "property": "C51",
   "status": "proved",
   "theorems": [
    "C51_acknowledgement"
   ],
   "note": "Any reachable state, any packet."
  },
  {
   "property": "C18",
   "status": "proved",
   "theorems": [
    "C18_write_all",
    "C18_write_all_returns",
    "C18_read_all",
    "C18_stream",
    "C18_progress"
   ],
   "note": "Blocking calls and a stream of messages over a non-blocking connection, for every schedule of partial transfers and failures; progress under fair scheduling with an explicit bound."
  },
  {
   "property": "C19",
   "status": "proved",
   "theorems": [
    "C19_decoder",
    "C19_status"
   ],
   "note": "The outcome of every call is determined by the bytes read since the last clear, for arbitrary bytes and portions. A reader that returns a count larger than its slice is not modelled."
  },
  {
   "property": "C52",
   "status": "partial",
   "theorems": [
    "C52_encoder_never_panics",
    "C52_decoder_advance_refuted",
    "C52_decoder_advance_partial",
    "C52_encoder_from_parts"
   ],
   "note": "Holds for the encoder. Violated for the decoder: advance accepts a step from inside the header to beyond the announced message, after which message() panics; it holds for steps within the slice handed out."
  },
  {
   "property": "C53",
   "status": "partial",
   "theorems": [
    "C53_read_eof_partial",
    "C53_write_zero_refuted",
    "C53_read_error",
    "C53_write_error"
   ],
   "note": "Holds for reading. Violated for writing: a writer that returns Ok(0) makes write_all_to_stdio loop forever."
  },
  {
   "property": "C54",
   "status": "proved",
   "theorems": [
    "C54_resp_hello",
    "C54_once"
   ],
   "note": "Any reachable state and packet; any history without a new initiation after the acceptance."
  },
  {
   "property": "C33",
   "status": "proved",
   "theorems": [
    "C33_build_iff",
    "C33_build_fails",
    "C33_built_server",
    "C33_announced_position",
    "C33_keypair_once"
   ],
   "note": "Any builder. The server that is built is reachable, so the theorems about the engine apply to it."
  },
  {
   "property": "C34",
   "status": "proved",
   "theorems": [
    "C34_malformed",
    "C34_supplied",
    "C34_at_most_once",
    "C34_never_replaced",
    "C34_duplicate_peers_refuted"
   ],
   "note": "Any history of peers added, requests and engine calls. C34_duplicate_peers_refuted adds that with a duplicate peer the request is not answered and the site becomes unusable for ever."
  },
  {
   "property": "C27",
   "status": "proved",
   "theorems": [
    "C27_length",
    "C27_separates"
   ],
   "note": "Flow information is not part of the identifier, as the statement says."
  },
  {
   "property": "C28",
   "status": "partial",
   "theorems": [
    "C28_merge",
    "C28_pairs_refuted",
    "C28_unreachable_refuted",
    "C28_scouting_partial",
    "C28_order_partial",
    "C28_coprime_partial"
   ],
   "note": "Merging is proved. That scouting reaches every pair is false in two ways: address and socket numbers advance in step, and only the first address is tried when sending fails. Proved instead: what one call tries, and that every pair has its turn if the two numbers are coprime and the system accepts every packet."
  },
  {
   "property": "C29",
   "status": "proved",
   "theorems": [
    "C29_next_is_fresh",
    "C29_never_twice",
    "C29_registration_never_panics",
    "C29_socket_events"
   ],
   "note": "Any history of registrations, removals, accepts, closes and events. Overflow of the 64 bit counter is not modelled."
  },
  {
   "property": "C30",
   "status": "partial",
   "theorems": [
    "C30_overwritten_refuted",
    "C30_failed_registration_refuted",
    "C30_no_broker_refuted",
    "C30_unregister_partial",
    "C30_stack_partial"
   ],
   "note": "As stated it is false: after an out-of-order removal a registration overwrites another broker, and a failed registration or an empty store makes the next replacement panic. Proved: removals never disturb other pointers, and while registrations succeed and only the newest broker is removed or replaced the store is a stack and every token leads to its broker."
  },
  {
   "property": "C36",
   "status": "partial",
   "theorems": [
    "C36_events_refuted",
    "C36_slot_refuted",
    "C36_crash_refuted",
    "C36_starved_refuted",
    "C36_kept_partial",
    "C36_polled_partial"
   ],
   "note": "As stated it is false: no event ever reaches a connection, slots move, a client can make the server panic, and a failing connection starves those behind it. Proved: a connection stays in exactly one slot until it asks to be closed, and a poll of all connections gets to it unless an earlier one fails."
  },
  {
   "property": "C31",
   "status": "partial",
   "theorems": [
    "C31_aligned_partial",
    "C31_unresolved_refuted"
   ],
   "note": "Any history of peers added and turns taken. False only after a peer was added whose host name did not resolve: the engine keeps it, and the next peer added makes the server panic."
  },
  {
   "property": "C32",
   "status": "partial",
   "theorems": [
    "C32_not_consecutive_refuted",
    "C32_eleven_failures_partial"
   ],
   "note": "As stated it is false: failures are never forgotten, so the eleventh one ends the server however much it did in between. Proved: it never gives up before the eleventh failure, and the waiting times."
  },
  {
   "property": "C55",
   "status": "partial",
   "theorems": [
    "C55_own_sinks",
    "C55_delivered_partial",
    "C55_unsent_reply_refuted",
    "C55_lost_key_refuted"
   ],
   "note": "That keys only reach their own peer's sinks is proved for all histories. Delivery is proved for turns whose outputs work; it is false when the reply cannot be sent or when the engine refuses a message after it installed the key."
  },
  {
   "property": "C56",
   "status": "proved",
   "theorems": [
    "C56_endpoint_changes",
    "C56_sent_packets"
   ],
   "note": "Any history."
  },
  {
   "property": "C57",
   "status": "partial",
   "theorems": [
    "C57_never_again_refuted",
    "C57_initiates_partial"
   ],
   "note": "As stated it is false: when the engine asks for an initiation while no address is known, the request is forgotten, and no handshake is ever started with that peer again. Proved: if an address is known when the engine asks, the message is sent in that turn or the turn fails."
  },
  {
   "property": "C58",
   "status": "partial",
   "theorems": [
    "C58_turn_no_panic_partial",
    "C58_missing_broker_refuted"
   ],
   "note": "As stated it is false: a failed add_psk_broker request makes the next key output panic, and see C36. Proved: no panic while brokers stay registered and the I/O sources do not panic."
  },
  {
   "property": "C59",
   "status": "partial",
   "theorems": [
    "C59_turn_errors_partial",
    "C59_datagrams_stop_server_refuted"
   ],
   "note": "As stated it is false: eleven answered datagrams from an address that cannot be sent to end the server. Proved: the complete list of reasons for which a turn can fail."
  },
  {
   "property": "C60",
   "status": "proved",
   "theorems": [
    "C60_exactly_once",
    "C60_progress"
   ],
   "note": "Datagrams longer than 2500 bytes are cut off, as the statement of the theorem says."
  },
  {
   "property": "C61",
   "status": "partial",
   "theorems": [
    "C61_level_partial",
    "C61_edge_refuted",
    "C61_edge_partial"
   ],
   "note": "With edge-triggered readiness, which mio uses, it is false: when two datagrams come in together, the first is handed over and the server then sleeps although the second waits. Proved for level-triggered readiness, which a comment in the code assumes, and for edge-triggered readiness while datagrams come one at a time."
  },
  {
   "property": "C62",
   "status": "partial",
   "theorems": [
    "C62_starved_refuted",
    "C62_order_partial"
   ],
   "note": "As stated it is false: a flood at the first socket keeps the second from being looked at for any number of calls. Proved: without pending events a datagram waits only for those at sockets with smaller numbers."
  },
  {
   "property": "C63",
   "status": "partial",
   "theorems": [
    "C63_decision_partial",
    "C63_forced",
    "C63_flood_unnoticed_refuted",
    "C63_starts_unloaded"
   ],
   "note": "The decision is proved exactly as described. The last sentence is false: a period in which the server waited once counts as normal, however many datagrams follow."
  },
  {
   "property": "C64",
   "status": "proved",
   "theorems": [
    "C64_datagram_unchanged",
    "C64_datagram_reaches_engine"
   ],
   "note": "A turn spent on something the engine asked for receives nothing."
  },
  {
   "property": "C65",
   "status": "proved",
   "theorems": [
    "C65_signal_heard",
    "C65_only_on_signal"
   ],
   "note": "For calls in which nothing fails and no socket is reported ready that is not; errors end the loop in another way (C59)."
  },
  {
   "property": "C35",
   "status": "proved",
   "theorems": [
    "C35_types_distinct",
    "C35_parsed_iff",
    "C35_parsed_exactly_iff",
    "C35_made",
    "C35_unambiguous",
    "C35_answered",
    "C35_client_reads",
    "C35_otherwise",
    "C35_rejected",
    "C35_no_room",
    "C35_ping",
    "C35_listen",
    "C35_suffix_refuted",
    "C35_suffix_read"
   ],
   "note": "The service parses requests from the front; parsing from the end of a buffer (not used by it) reads the type at the wrong place, as C35_suffix_refuted shows. C35_otherwise lists when a well-formed request is not answered: a keypair for a server whose construction fails, and a panic for a broker socket that is not a stream."
  },
  {
   "property": "C37",
   "status": "partial",
   "theorems": [
    "C37_one_call",
    "C37_in_order_partial",
    "C37_api_partial",
    "C37_progress",
    "C37_rejected_refuted",
    "C37_later_request_refuted"
   ],
   "note": "Proved for connections on which the application answers every request: each request once, in order, with its file descriptors, and the responses in order. The last part is false: a rejected request stays in the buffer and is given to the application at every further poll."
  },
  {
   "property": "C66",
   "status": "partial",
   "theorems": [
    "C66_broken_is_closed_partial",
    "C66_read_error_closes",
    "C66_oversized_closes",
    "C66_writer_gone_refuted",
    "C66_reader_gone_refuted",
    "C66_server_stops_refuted",
    "C37_rejected_refuted"
   ],
   "note": "Holds for messages that are too long and for failing reads. It is false for rejected requests and for clients that go away before reading their response (every poll fails, the connection is not closed, and the eleventh failure ends the server), and for clients that go away after it (never closed)."
  },
  {
   "property": "C38",
   "status": "proved",
   "theorems": [
    "C38_unchanged",
    "C38_refused",
    "C38_only_valid",
    "C38_response_read",
    "C38_pipeline",
    "C38_netlink",
    "C38_no_such_peer",
    "C38_extra_lost_refuted",
    "C38_no_such_interface_refuted"
   ],
   "note": "Proved for every key, peer, interface name and inner broker, for whole streams of requests, and for the netlink broker as the inner one. Beyond the statement: extra parameters are not transmitted, and a missing interface is reported as an internal error."
  },
  {
   "property": "C39",
   "status": "partial",
   "theorems": [
    "C39_written_in_order",
    "C39_first_partial",
    "C39_reported_partial",
    "C39_later_refuted",
    "C39_repeated_refuted"
   ],
   "note": "The requests are written completely and in order, and the first response is reported. The rest is false: the client never clears its receive buffer, so it reports the first response at every poll and reads no other."
  },
  {
   "property": "C40",
   "status": "partial",
   "theorems": [
    "C40_valid_partial",
    "C40_responses",
    "C40_every_input",
    "C40_wedge_refuted",
    "C40_anyone_refuted",
    "C40_requests_read"
   ],
   "note": "Holds for valid requests. False otherwise: the privileged broker does not answer an invalid request, the socket handler passes it on unchecked and then waits forever."
  },
  {
   "property": "C67",
   "status": "partial",
   "theorems": [
    "C67_call_refuted",
    "C67_refuted",
    "C67_polls_partial"
   ],
   "note": "False: a call of set_psk writes at most the 8 bytes of the header of its own request, whatever the socket would take. Two further polls write the rest."
  },
  {
   "property": "C41",
   "status": "proved",
   "theorems": [
    "C41_contents",
    "C41_zero",
    "C41_storage",
    "C41_panics"
   ],
   "note": "For all histories of creating, writing, cloning and dropping secrets on any threads, with or without their pools, and any reuse of memory by the allocator. Not modelled: running out of memory, mem::forget, what the compiler does with wiped memory."
  },
  {
   "property": "C42",
   "status": "partial",
   "theorems": [
    "C42_total",
    "C42_understood_partial",
    "C42_nothing_else",
    "C42_runs_as_asked",
    "C42_endpoint_psk_refuted",
    "C42_cut_off_refuted",
    "C42_no_public_key_refuted"
   ],
   "note": "Totality, and that what is accepted is what was asked for, are proved for all argument lists. False: a peer with both an endpoint and a preshared key is always refused (config.rs line 644 marks the wrong option); a command line cut off before a value is accepted; a peer without a public key gets the empty path."
  },
  {
   "property": "C43",
   "status": "partial",
   "theorems": [
    "C43_never_overwrites",
    "C43_refuses",
    "C43_written_partial",
    "C43_private_partial",
    "C43_interrupted",
    "C43_gen_config",
    "C43_keygen_written_partial",
    "C43_same_file_refuted",
    "C43_force_private_refuted",
    "C43_keygen_overwrites_refuted"
   ],
   "note": "gen-keys without --force changes no existing file and the secret key is private at every point. False: with one path for both keys the secret key is lost and success reported; with --force an existing world-readable file keeps its mode; the deprecated keygen overwrites without asking. Success means both files are written if the targets are regular files or absent."
  },
  {
   "property": "C68",
   "status": "partial",
   "theorems": [
    "C68_text_is_base64",
    "C68_roundtrip",
    "C68_roundtrip_public",
    "C68_exact",
    "C68_b64_roundtrip",
    "C68_b64_fits",
    "C68_b64_loaded_partial",
    "C68_b64_one_text",
    "C68_private_partial",
    "C68_only_there",
    "C68_b64_short_refuted",
    "C68_existing_refuted"
   ],
   "note": "False: a Base64 key file with too few bytes is accepted and the rest of the key is what was in the buffer (b64.rs line 66 ignores InvalidLength); a file that existed keeps its permissions when a secret is stored in it."
  },
  {
   "property": "C69",
   "status": "partial",
   "theorems": [
    "C69_verdict",
    "C69_changes_nothing",
    "C69_refused",
    "C69_passed_partial",
    "C69_missing_psk_refuted",
    "C69_status_refuted"
   ],
   "note": "False: preshared keys, WireGuard ids and the presence of a keypair are not checked, so that a configuration passes which cannot be run; the exit status is success whatever the verdicts are."
  },
  {
   "property": "C44",
   "status": "partial",
   "theorems": [
    "C44_never_overwrites",
    "C44_success_partial",
    "C44_private",
    "C44_existing_refuted",
    "C44_interrupted_refuted"
   ],
   "note": "False: an existing directory is always refused, because key.rs line 39 compares the whole mode word with the permission bits; when writing was interrupted the command cannot be repeated."
  },
  {
   "property": "C47",
   "status": "proved",
   "theorems": [
    "C47_exact",
    "C47_total",
    "C47_repeated_refuted",
    "C47_help_refuted"
   ],
   "note": "C47_exact: the accepted lines are exactly those of a separate grammar and the result is what they say. Of an option given twice the last value counts silently, and help overrides a command before it; shown by the two refutations of stronger readings."
  },
  {
   "property": "C70",
   "status": "partial",
   "theorems": [
    "C70_exports_partial",
    "C70_only_public",
    "C70_existing",
    "C70_pair",
    "C70_retry_refuted"
   ],
   "note": "False: after a failure the directory exists and a second run is refused."
  },
  {
   "property": "C71",
   "status": "partial",
   "theorems": [
    "C71_runs_as_asked_partial",
    "C71_starts",
    "C71_routes_partial",
    "C71_config_same",
    "C71_port_refuted",
    "C71_scope_refuted",
    "C71_routes_refuted",
    "C71_config_refuted"
   ],
   "note": "Proved for ports below 65535, addresses without scope and peers with a single network; each of the other cases is refuted. An unreadable configuration file makes the program panic."
  },
  {
   "property": "C72",
   "status": "partial",
   "theorems": [
    "C72_existing_untouched",
    "C72_only_that_device",
    "C72_removed_partial",
    "C72_left_refuted"
   ],
   "note": "False: a device that was created but could not be brought up is left behind. Whether a device is removed after a panic is not modelled."
  },
  {
   "property": "C73",
   "status": "partial",
   "theorems": [
    "C73_hands_over_partial",
    "C73_key_not_in_arguments",
    "C73_total",
    "C73_peer_named",
    "C73_status_refuted"
   ],
   "note": "False: success is reported whatever wg does (native_unix.rs lines 107-127 only log)."
  },
  {
   "property": "C74",
   "status": "partial",
   "theorems": [
    "C74_waits_for_jobs",
    "C74_no_internal_error",
    "C74_progress",
    "C74_ends",
    "C74_takes_jobs_partial",
    "C74_others_abandoned_refuted",
    "C74_refused_refuted",
    "C74_active_refuted"
   ],
   "note": "False: after one job has failed the others are not waited for and new ones are refused (spawn_cleanup_job panics) or taken and forgotten; has_active_janitor returns the opposite of what it says."
  },
  {
   "property": "C75",
   "status": "proved",
   "theorems": [
    "C75_matching_conversations",
    "C75_initiators_differ",
    "C75_responders_differ"
   ],
   "note": "Stated for the complete runs of both sides with any history in between; the escape clause names the hash evaluations, which are determined by the two handshakes."
  },
  {
   "property": "C76",
   "status": "partial",
   "theorems": [
    "C76_agreement_partial",
    "C76_both_responders_refuted",
    "C76_both_initiators_refuted",
    "C76_crossing_refuted"
   ],
   "note": "False: each side drops its own handshake and installs the session of the other's, so that both end as responders with different keys until the next rekeying, which both start at the same time again. Proved: agreement as long as an initiator and a responder of one handshake keep its session."
  },
  {
   "property": "C77",
   "status": "proved",
   "theorems": [
    "C77_read",
    "C77_runs_as_configured"
   ],
   "note": "What a text in TOML means is a parameter of the model; `.` and repeated slashes inside paths are not normalized in the model, which the system does not care about."
  },
  {
   "property": "C78",
   "status": "partial",
   "theorems": [
    "C78_roundtrip",
    "C78_only_encrypted",
    "C78_nothing_decrypted",
    "C78_too_small_partial",
    "C78_too_large_refuted",
    "C78_nonce_roundtrip",
    "C78_nonce_only_encrypted",
    "C78_nonce_too_small_partial",
    "C78_primitives_correct",
    "C78_primitives_used"
   ],
   "note": "The code panics instead of reporting wrong lengths when the buffer for the ciphertext (decrypting: the ciphertext) is longer than needed: C78_too_large_refuted. The stream cipher and the authenticator are parameters; the wrappers of rust_crypto are modelled, not those of libcrux."
  },
  {
   "property": "C79",
   "status": "proved",
   "theorems": [
    "C79_collision",
    "C79_shape",
    "C79_conversations",
    "C79_matching_conversations"
   ],
   "note": "Blake2b and SHAKE256 are parameters of the model."
  },
  {
   "property": "C80",
   "status": "proved",
   "theorems": [
    "C80_copy"
   ],
   "note": ""
  },
  {
   "property": "C81",
   "status": "partial",
   "theorems": [
    "C81_claim_partial",
    "C81_claim_failed",
    "C81_claim_works",
    "C81_inplace",
    "C81_inplace_failed",
    "C81_minus_one_refuted",
    "C81_twice_refuted"
   ],
   "note": "The code panics for -1 (C81_minus_one_refuted) and hands out /dev/null when a descriptor is claimed twice (C81_twice_refuted). Other threads that open descriptors meanwhile are not modelled."
  },
  {
   "property": "C82",
   "status": "partial",
   "theorems": [
    "C82_sources_partial",
    "C82_own_descriptor_refuted",
    "C82_own_listener_refuted",
    "C82_minus_one_refuted",
    "C82_not_a_stream_refused",
    "C82_has_sources"
   ],
   "note": "Proved when the descriptors named are open before the server opens its own and are all different. Otherwise false of the code: it takes its own UDP socket or listener for the API, and panics for -1."
  },
  {
   "property": "C83",
   "status": "partial",
   "theorems": [
    "C83_in_order",
    "C83_all_sent_partial",
    "C83_all_sent_refuted"
   ],
   "note": "Order and uniqueness for all histories. That writing a whole message sends all descriptors holds for messages of at least a byte per 253 descriptors and is false for shorter ones."
  },
  {
   "property": "C84",
   "status": "proved",
   "theorems": [
    "C84_received",
    "C84_failed",
    "C84_limit"
   ],
   "note": "That the kernel gives received descriptors the lowest free numbers is part of the model; other threads are not modelled."
  },
  {
   "property": "C85",
   "status": "partial",
   "theorems": [
    "C85_constant_of_number_partial",
    "C85_too_big_refuted",
    "C85_negative_unsigned"
   ],
   "note": "Proved for every number the type can hold. A number it cannot hold is not refused: it is cut to the bits of the type, for every such number, and 256 as u8 is 0. Such a conversion compiles because << drops bits silently."
  },
  {
   "property": "C86",
   "status": "proved",
   "theorems": [
    "C86_roundtrip",
    "C86_only_that_text",
    "C86_text_is_base64",
    "C86_other_size",
    "C86_stricter_than_files"
   ],
   "note": "The library base64 with the engine STANDARD is modelled by what it documents: padding is required and bits left over are refused. The format of the document around the string is not modelled."
  },
  {
   "property": "C87",
   "status": "partial",
   "theorems": [
    "C87_choice_is_final",
    "C87_secrets_use_the_choice_partial",
    "C87_blocks_are_accounted_for",
    "C87_memory_is_aligned",
    "C87_no_secret_without_choice",
    "C87_policy_in_force",
    "C87_no_fallback",
    "C87_try_again_refuted"
   ],
   "note": "All of it is proved but that choosing the same policy again changes nothing: the policy that tries memfd_secret panics if the second test has another answer."
  },
  {
   "property": "C88",
   "status": "partial",
   "theorems": [
    "C88_setup_partial",
    "C88_split",
    "C88_parse",
    "C88_wrong_size",
    "C88_read_back",
    "C88_suffix_refuted",
    "C88_suffix_not_at_end_refuted",
    "C88_zeroized"
   ],
   "note": "setup_response_from_suffix writes at the start of the buffer. The rest is proved."
  },
  {
   "property": "C89",
   "status": "partial",
   "theorems": [
    "C89_secrets_are_not_printed",
    "C89_public_distinct_partial",
    "C89_long_values_are_abridged",
    "C89_public_refuted",
    "C89_public_text"
   ],
   "note": "Different public values can have the same output as bytes are printed without leading zeros; values without bytes below 16 are told apart."
  },
  {
   "property": "C90",
   "status": "proved",
   "theorems": [
    "C90_initiator_secrecy"
   ],
   "note": "In a symbolic (Dolev-Yao) model: hash functions, KEMs and ciphers are free constructors with their intended inverses, fresh values do not collide. The parties of the model do everything the code does and more (no macs, timers, counters). C94 connects the model to the protocol functions."
  },
  {
   "property": "C91",
   "status": "proved",
   "theorems": [
    "C91_initiator_agreement",
    "C91_responder_agreement",
    "C91_confirmation",
    "C91_honest_run",
    "C91_lost_keys_responder_impersonated"
   ],
   "note": "Symbolic model as for C90. That a biscuit is accepted at most once is C02. The conditions are about the keys of the peer: C91_initiator_keys_lost_example and C91_responder_keys_lost_example have all own keys lost. They are needed: the last theorem, and C92_lost_keys_initiator_impersonated for the responder."
  },
  {
   "property": "C92",
   "status": "proved",
   "theorems": [
    "C92_responder_secrecy",
    "C92_biscuit_key_impersonates",
    "C92_lost_keys_initiator_impersonated"
   ],
   "note": "Symbolic model as for C90. The second theorem shows that the condition on the biscuit key is needed, the third the one on the peer's static key and the pre-shared key."
  },
  {
   "property": "C93",
   "status": "proved",
   "theorems": [
    "C93_initiator_forward_secrecy",
    "C93_responder_forward_secrecy"
   ],
   "note": "Symbolic model as for C90. Biscuit keys are replaced by the time limits of C15."
  },
  {
   "property": "C94",
   "status": "proved",
   "theorems": [
    "C94_init",
    "C94_resp",
    "C94_conf",
    "C94_done",
    "C94_keys"
   ],
   "note": "From the symbolic handshake to the code. C95 has the converse."
  },
  {
   "property": "C95",
   "status": "proved",
   "theorems": [
    "C95_histories_explained",
    "C95_every_call_explained",
    "C95_sessions"
   ],
   "note": "Conditions on each received message replace the idealisation of the primitives: no forged ciphertext, no colliding peer id. Cookie replies are not terms of the symbolic handshake."
  },
  {
   "property": "C96",
   "status": "proved",
   "theorems": [
    "C96_output_key_secret",
    "C96_session_agreement",
    "C96_forward_secrecy"
   ],
   "note": "Not known means not derivable with the operations of the primitives (Sym.knows)."
  },
  {
   "property": "C97",
   "status": "proved",
   "theorems": [
    "C97_secrets_stay",
    "C97_encapsulated_stay",
    "C97_server_secrets"
   ],
   "note": "Symbolic terms as in C90, linked to the servers by C95."
  },
  {
   "property": "C98",
   "status": "proved",
   "theorems": [
    "C98_initiators",
    "C98_responders",
    "C98_two_ends",
    "C98_sessions"
   ],
   "note": "Equal keys are equal terms; C98_sessions has that the two terms do not collide as a condition."
  },
  {
   "property": "C99",
   "status": "proved",
   "theorems": [
    "C99_init_conf_once",
    "C99_one_answer",
    "C99_responder_keys_differ",
    "C99_initiator_keys_differ",
    "C99_injective_agreement",
    "C99_injective_answers"
   ],
   "note": "Histories as in C95, where every event of the run is now tied to the change of the server that makes it (SymRun.causes); C95_every_call_explained shows this excludes no call."
  },
  {
   "property": "C100",
   "status": "partial",
   "theorems": [
    "C100_biscuit_keys_expire",
    "C100_biscuits_expire",
    "C100_cookies_expire_partial",
    "C100_stored_cookie_refuted",
    "C100_secret_rotation_refuted"
   ],
   "note": "False of the code are the last two parts: a secret is used for new cookies until it is 240 s old, and the time limit of PeerCookieValuePtr is never consulted, so an initiator uses a cookie as long as the handshake lasts."
  },
  {
   "property": "C101",
   "status": "partial",
   "theorems": [
    "C101_choice",
    "C101_not_passed_on",
    "C101_spawned_partial",
    "C101_failed",
    "C101_own_end_refuted",
    "C101_end_unseen_refuted",
    "C101_end_seen_partial"
   ],
   "note": "False of the code: the socket pair is made without close-on-exec, so that a started broker inherits rosenpass's own end, too (unless its number is 3), and then never meets the end of its connection, in any history."
  },
  {
   "property": "C102",
   "status": "partial",
   "theorems": [
    "C102_repeats",
    "C102_substitute",
    "C102_exact",
    "C102_pieces_partial",
    "C102_interrupted_refuted",
    "C102_accepts",
    "C102_slice",
    "C102_slice_interrupted_refuted",
    "C102_events_partial",
    "C102_overslept_refuted",
    "C102_substitute_named"
   ],
   "note": "False of the code: the read that looks for the end of a key is not repeated when it is interrupted, neither is any read of a Base64 text, and every interruption of the wait for events starts the time limit anew. The rest is proved for all sequences of results."
  },
  {
   "property": "C103",
   "status": "partial",
   "theorems": [
    "C103_parameters_kept",
    "C103_parameters_distinct",
    "C103_told_partial",
    "C103_network_partial",
    "C103_short_peer_refuted",
    "C103_refused",
    "C103_as_started",
    "C103_network_config_refuted"
   ],
   "note": "Proved for peers named by the Base64 of 32 bytes and for every list of parameters. Refuted: the Base64 of fewer bytes is accepted and completed with zeros, so that wg is told another peer than the configuration names (b64.rs 66); the parameters are lost with a broker behind a socket (C38_extra_lost_refuted); a configuration without encoded parameters, as in the crate's documentation, is always refused by the broker that calls wg. postcard is outside the repository and modelled by its wire format."
  },
  {
   "property": "C104",
   "status": "partial",
   "theorems": [
    "C104_peer_exact_partial",
    "C104_peer_accepted",
    "C104_peer_ignored",
    "C104_peer_kept",
    "C104_wireguard_refuted",
    "C104_api",
    "C104_config_exact_partial",
    "C104_config_accepted",
    "C104_config_kept",
    "C104_keypair_refuted",
    "C104_rp_peer",
    "C104_rp"
   ],
   "note": "Proved: every accepted table is understood exactly, complete tables are accepted, writing and reading is the identity, rp's files are accepted exactly if well-formed. Refuted: `device`, `peer` or `extra_params` without the others, or one of the two keys alone, of any type, is accepted and ignored (optional flattened structures)."
  },
  {
   "property": "C105",
   "status": "partial",
   "theorems": [
    "C105_restart_partial",
    "C105_home_refuted"
   ],
   "note": "Proved for command lines in which no path begins with `~`, for any syntax in which what is printed can be read again; refuted for paths of the home directory."
  },
  {
   "property": "C106",
   "status": "proved",
   "theorems": [
    "C106_lost_messages"
   ],
   "note": "Composition of C01, C04, C25, C26 and C48: the history may replace each message by a retransmission. Losing a RespHello is covered because the responder's state is any reachable one. B is not under load in this theorem; C21 has the exchange with cookies."
  },
  {
   "property": "C107",
   "status": "partial",
   "theorems": [
    "C107_level_partial",
    "C107_default",
    "C107_verbose_refuted",
    "C107_quiet_refuted",
    "C107_named_refuted"
   ],
   "note": "Refuted: --verbose gives info instead of debug, --quiet gives warnings too, and a module that RUST_LOG names keeps the level given there. Proved: --log-level for all other modules, and the default. env_logger's rules are modelled from its documentation."
  },
  {
   "property": "C108",
   "status": "partial",
   "theorems": [
    "C108_usage",
    "C108_status_partial",
    "C108_completions",
    "C108_no_command_refuted",
    "C108_manual_refuted",
    "C108_gen_keys",
    "C108_validate_refuted",
    "C108_rp_usage",
    "C108_rp_status",
    "C108_rp_genkey"
   ],
   "note": "Refuted: options without a command end with status 0 and do nothing; --generate-manpage ends with 0 though the page was cut off; validate ends with 0 whatever is wrong. Proved for all commands otherwise, and for rp without exception."
  },
  {
   "property": "C109",
   "status": "proved",
   "theorems": [
    "C109_same_key_at_both_ends"
   ],
   "note": "The turns of the two event loops (App.v) are mapped to histories of the engines (turn_engine, run_engine), to which C01 applies. The exchange must stay pending as in C01, the datagrams be handled while not under load (C20, C21 for the other case) and the turns end without error (C55 for what happens otherwise). C109_case is an exchange with key files at both ends and a broker at one."
  },
  {
   "property": "C110",
   "status": "partial",
   "theorems": [
    "C110_pending_kept",
    "C110_latest_conf_not_outdated",
    "C110_latest_conf_accepted_partial",
    "C110_damaged_copy_refuted",
    "C110_histories_have_calls"
   ],
   "note": "Symbolic attacker of C91 and C95. Refuted: a copy of the InitConf with a damaged mac is refused but uses up the biscuit, so the genuine one is refused after it. Proved: nothing else makes it outdated, as long as fewer than 2^96 - 2 calls were made; the responder must still have the key of the biscuit (C15, C100), and no answer to the same bytes or session under the same id."
  },
  {
   "property": "C111",
   "status": "proved",
   "theorems": [
    "C111_initiator_listened_to",
    "C111_responder_listened_to",
    "C111_sessions_listened_to",
    "C91_honest_run",
    "C111_ephemeral_key_needed",
    "C111_biscuit_key_needed"
   ],
   "note": "In the symbolic model of Sym.v, and for the sessions of the servers of C95's histories (equal values for different terms excluded there). Conditions: the ephemeral secret key of the initiator, the coins of the responder's encapsulation to it and the biscuit key used are not given to the attacker; nothing is assumed about static keys and pre-shared keys. The last two theorems show that these conditions are needed; a biscuit key alone gives away the keys of the handshakes it was used for."
  },
  {
   "property": "C112",
   "status": "proved",
   "theorems": [
    "C112_predicates",
    "C112_demands",
    "C112_right_ones_pass",
    "C112_requests",
    "C112_udp_refuted",
    "C112_listener_refuted"
   ],
   "note": "the refuted theorems are about what the code does not ask: that a descriptor that is accepted exchanges UDP datagrams, or is connected to somebody, does not follow: a raw socket for UDP and a listening socket are accepted"
  },
  {
   "property": "C113",
   "status": "proved",
   "theorems": [
    "C113_generator",
    "C113_types_are_hashes"
   ],
   "note": "BLAKE2b is defined after RFC 7693 in GenTypes.v; the theorem is about every backend whose BLAKE2b is that function"
  },
  {
   "property": "C114",
   "status": "partial",
   "theorems": [
    "C114_in_order",
    "C114_goes_on",
    "C114_closed",
    "C114_settles",
    "C114_answered",
    "C114_dead",
    "C114_wedge_refuted"
   ],
   "note": "Order, attribution and independence of connections hold in every history. That every complete request is answered holds if no client wrote an invalid one; otherwise it is false: after one invalid request of any client nothing is handled any more (C114_wedge_refuted). Simplification: a read takes a message when all of it is there, and writing to the pipes does not block."
  },
  {
   "property": "C115",
   "status": "partial",
   "theorems": [
    "C115_returns_partial",
    "C115_returns_idle",
    "C115_flags",
    "C115_errors",
    "C115_mode_refuted",
    "C115_stalls_refuted",
    "C115_second_call_refuted"
   ],
   "note": "False in general: every successful call leaves its request pending, and a further call does not return while the socket takes nothing. The flags are set with F_SETFD, which knows no O_NONBLOCK, and the flag is added instead of removed: the loop spins."
  },
  {
   "property": "C116",
   "status": "partial",
   "theorems": [
    "C116_committed",
    "C116_nowhere",
    "C116_interrupted",
    "C116_lost_refuted",
    "C116_emptied_refuted",
    "C116_read_again_partial",
    "C116_stable",
    "C116_made"
   ],
   "note": "That the notation of toml and of addresses can be read again is a hypothesis on this configuration. False: an interrupted commit can leave any part of the text, also in the second of the two writes, and a configuration that cannot be written as text empties the file. C116_read_again_partial: a path that begins with ~/ is read as one of the home directory."
  },
  {
   "property": "C117",
   "status": "partial",
   "theorems": [
    "C117_origin",
    "C117_order",
    "C117_last",
    "C117_arrives",
    "C117_unpolled_refuted"
   ],
   "note": "Composes the client (Broker.v), the handler under every schedule (Handler.v) and netlink. Partial because the key of a call that has returned is not in WireGuard until the client polls (C117_unpolled_refuted); this is the defect of C67 seen from WireGuard. Example117 meets the hypotheses of C117_last and C117_unpolled_refuted."
  },
  {
   "property": "C118",
   "status": "proved",
   "theorems": [
    "C118_same_psk"
   ],
   "note": "Composes C109 (both servers hand over the same key) with C117_last (the key handed over last is the one WireGuard has). The link between the output of the server and the calls of the broker client is the definition handed; that a call is followed by the polls that write its request out is part of broker_done (see C117_unpolled_refuted). The example is an exchange of two servers with brokers."
  }
 ]
}