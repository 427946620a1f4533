{
 "claims": [
  {
   "property": "C01",
   "status": "proved",
   "theorems": [
    "C01_request_header_exact"
   ],
   "note": ""
  },
  {
   "property": "C02",
   "status": "proved",
   "theorems": [
    "C02_process_request_roundtrip"
   ],
   "note": ""
  },
  {
   "property": "C03",
   "status": "proved",
   "theorems": [
    "C03_process_response_roundtrip"
   ],
   "note": ""
  },
  {
   "property": "C04",
   "status": "proved",
   "theorems": [
    "C04_setup_request_roundtrip"
   ],
   "note": ""
  },
  {
   "property": "C05",
   "status": "partial",
   "theorems": [
    "C05_setup_response_roundtrip_partial",
    "C05_setup_response_roundtrip_refuted"
   ],
   "note": "refuted: a response with an empty signature is encoded without hash type and signature size (action_002_setup.go:271) and does not parse back; the round trip is proved for every non-empty signature."
  },
  {
   "property": "C06",
   "status": "proved",
   "theorems": [
    "C06_fetch_key_response_roundtrip"
   ],
   "note": ""
  },
  {
   "property": "C07",
   "status": "proved",
   "theorems": [
    "C07_error_response_roundtrip"
   ],
   "note": ""
  },
  {
   "property": "C08",
   "status": "proved",
   "theorems": [
    "C08_truncation_rejected"
   ],
   "note": ""
  },
  {
   "property": "C09",
   "status": "proved",
   "theorems": [
    "C09_size_limits"
   ],
   "note": ""
  },
  {
   "property": "C10",
   "status": "partial",
   "theorems": [
    "C10_error_response_limit_refuted",
    "C10_error_response_buffer_partial"
   ],
   "note": "refuted: ParseErrorResponse checks no limit, so messages of every size below 2^63-1 are buffered; proved is only that it never buffers more than was transmitted and allocates nothing from the announced size."
  },
  {
   "property": "C100",
   "status": "partial",
   "theorems": [
    "C100_copy_refuted"
   ],
   "note": "refuted: Write returns the octets of the whole request, 50 more than it was given, which io.Copy takes for an invalid count; it reports that nothing was written although the request was sent."
  },
  {
   "property": "C101",
   "status": "proved",
   "theorems": [
    "C101_request_flags",
    "C101_response_read",
    "C101_response_handshake",
    "C101_response_fetch",
    "C101_server_sends_zero"
   ],
   "note": ""
  },
  {
   "property": "C102",
   "status": "proved",
   "theorems": [
    "C102_reuse"
   ],
   "note": ""
  },
  {
   "property": "C103",
   "status": "partial",
   "theorems": [
    "C103_counters_increase_refuted",
    "C103_counters_increase_partial"
   ],
   "note": "refuted for clients that share a session: the counter is taken and the request written in separate steps, so requests overtake each other; proved for the successive Writes of one client over any transport."
  },
  {
   "property": "C104",
   "status": "partial",
   "theorems": [
    "C104_pool_requests_accepted_refuted",
    "C104_pool_requests_accepted_partial"
   ],
   "note": "refuted: a request overtaken by 64 or more others of its session falls out of the replay window. Proved for requests overtaken by fewer than 64, over a network that loses and reorders."
  },
  {
   "property": "C105",
   "status": "partial",
   "theorems": [
    "C105_decryption_failure_code_refuted"
   ],
   "note": "refuted: the code sent is 2 (server error). What holds: C32_unauthentic_partial (no effect)."
  },
  {
   "property": "C106",
   "status": "proved",
   "theorems": [
    "C106_fetch_protocol"
   ],
   "note": "result stated through pkix_parse of the marshalled key, which is the identity on keys that survive PKIX encoding."
  },
  {
   "property": "C107",
   "status": "partial",
   "theorems": [
    "C107_unasked_answers_refuted",
    "C107_unasked_silent_partial"
   ],
   "note": "refuted: errors are answered regardless of the flag; proved that an accepted request is processed in silence."
  },
  {
   "property": "C108",
   "status": "partial",
   "theorems": [
    "C108_sessions_bounded_refuted",
    "C108_sessions_bounded_partial"
   ],
   "note": "refuted: any number of Setup requests of one host all succeed and all sessions are kept (until the collector removes idle ones). partial: after a collection no more are kept than were stored or used since one TTL before it (operations that do not overlap)."
  },
  {
   "property": "C109",
   "status": "proved",
   "theorems": [
    "C109_hello"
   ],
   "note": ""
  },
  {
   "property": "C11",
   "status": "proved",
   "theorems": [
    "C11_segmentation_independence",
    "C11_segmentation_flat"
   ],
   "note": ""
  },
  {
   "property": "C110",
   "status": "proved",
   "theorems": [
    "C110_read_bounded"
   ],
   "note": ""
  },
  {
   "property": "C111",
   "status": "proved",
   "theorems": [
    "C111_calls_are_writes",
    "C111_each_write_once",
    "C111_each_call_one_write"
   ],
   "note": "unforgeability is the hypothesis requests_unforged on the actual execution, not an axiom; keys of different sessions are assumed different."
  },
  {
   "property": "C112",
   "status": "proved",
   "theorems": [
    "C112_replies_answer_writes"
   ],
   "note": "unforgeability is the hypotheses requests_unforged and replies_unforged on the actual execution; at most 2^64 counters taken."
  },
  {
   "property": "C113",
   "status": "proved",
   "theorems": [
    "C113_closing_connection",
    "C113_last_request"
   ],
   "note": ""
  },
  {
   "property": "C114",
   "status": "proved",
   "theorems": [
    "C114_fresh_session"
   ],
   "note": ""
  },
  {
   "property": "C115",
   "status": "partial",
   "theorems": [
    "C115_lost_session_replaced_refuted"
   ],
   "note": "refuted: every exchange on every client the pool hands out keeps failing with error 3, since the Hello test still succeeds and new clients get the lost session too. What holds: C114 (a pool that is closed and used again has a fresh session)."
  },
  {
   "property": "C116",
   "status": "proved",
   "theorems": [
    "C116_malformed_answered"
   ],
   "note": ""
  },
  {
   "property": "C117",
   "status": "partial",
   "theorems": [
    "C117_failed_dial_leaves_nothing_refuted",
    "C117_failed_dial_leaves_nothing_partial"
   ],
   "note": "refuted: DialTCP forgets the socket if SetKeepAlive fails; DialUDP leaves the socket open whenever the handshake fails. partial: TCP and pool dials with SetKeepAlive succeeding."
  },
  {
   "property": "C118",
   "status": "proved",
   "theorems": [
    "C118_fetch_leaves_nothing"
   ],
   "note": ""
  },
  {
   "property": "C119",
   "status": "partial",
   "theorems": [
    "C119_close_stops_everything_refuted",
    "C119_close_stops_everything_partial"
   ],
   "note": "refuted: with a secret manager given as option the default one is made as well and its collector is never stopped. partial: with the default manager."
  },
  {
   "property": "C12",
   "status": "proved",
   "theorems": [
    "C12_requests_unambiguous",
    "C12_responses_unambiguous"
   ],
   "note": "Setup responses with an empty signature are excluded (see C05)."
  },
  {
   "property": "C120",
   "status": "partial",
   "theorems": [
    "C120_any_interval_refuted",
    "C120_any_interval_partial"
   ],
   "note": "refuted: a collection interval <= 0 with a positive TTL panics in a goroutine. partial: exactly all other intervals work."
  },
  {
   "property": "C121",
   "status": "partial",
   "theorems": [
    "C121_shared_manager_refuted",
    "C121_own_manager_partial"
   ],
   "note": "refuted: closing the first server stops the collector for good. partial: servers with managers of their own."
  },
  {
   "property": "C122",
   "status": "proved",
   "theorems": [
    "C122_host_is_the_peers"
   ],
   "note": ""
  },
  {
   "property": "C123",
   "status": "partial",
   "theorems": [
    "C123_tls_key_found_refuted",
    "C123_tls_key_found_partial"
   ],
   "note": "refuted: an IPv6 literal gets the port appended without brackets, so dialling fails always. partial: every host without a colon."
  },
  {
   "property": "C124",
   "status": "proved",
   "theorems": [
    "C124_tls_key_is_certified"
   ],
   "note": ""
  },
  {
   "property": "C125",
   "status": "partial",
   "theorems": [
    "C125_loaded_key_signs_refuted",
    "C125_loaded_key_signs_partial"
   ],
   "note": "refuted: an RSA key too short for SHA-512 is accepted and never signs. partial: the key is the file's, its public half is supported, whatever is signed is verified, generated keys have the algorithm asked for."
  },
  {
   "property": "C126",
   "status": "partial",
   "theorems": [
    "C126_loaded_key_verifies_refuted",
    "C126_loaded_key_verifies_partial"
   ],
   "note": "refuted: a key of another kind (X25519) is accepted and no signature can be verified with it. partial: the key is the file's; if it is the manager's, all its signatures are verified."
  },
  {
   "property": "C127",
   "status": "partial",
   "theorems": [
    "C127_any_length_delivered_refuted"
   ],
   "note": "refuted: Write of more than 2^30 - 16 octets reports success and the server refuses it as malformed. The true part, messages up to the limit, is C45_round_trip."
  },
  {
   "property": "C128",
   "status": "partial",
   "theorems": [
    "C128_any_reply_arrives_refuted"
   ],
   "note": "refuted: a reply of more than 2^30 - 16 octets is sent, refused by the client, and its octets are left in the stream. The true part is C45_round_trip."
  },
  {
   "property": "C129",
   "status": "partial",
   "theorems": [
    "C129_udp_answer_in_time_refuted",
    "C129_udp_answer_in_time_partial"
   ],
   "note": "refuted: the write deadline is shared and can be moved back by a goroutine that was suspended between reading the clock and setting it. partial: without such suspension, and without a timeout."
  },
  {
   "property": "C13",
   "status": "partial",
   "theorems": [
    "C13_published_layout_partial",
    "C13_published_layout_refuted",
    "C13_actual_layout",
    "C13_published_codes"
   ],
   "note": "refuted for two messages: the Fetch-key response uses an 8-octet size (README: 4) and the signed Setup response a 4-octet signature size (README: 8); all other layouts proved."
  },
  {
   "property": "C130",
   "status": "partial",
   "theorems": [
    "C130_slow_handler_answered_refuted"
   ],
   "note": "refuted: an answer after the write deadline, set before the request was read, is dropped and its counter is used up. The true part is C68_late_request_answered_partial."
  },
  {
   "property": "C131",
   "status": "proved",
   "theorems": [
    "C131_sessions_apart"
   ],
   "note": "connections and collection interleaved effect by effect; Load, Store and CheckAndUpdate are single steps (C22-C26); the environment of a connection answers independently of the others."
  },
  {
   "property": "C132",
   "status": "proved",
   "theorems": [
    "C132_hosts_apart"
   ],
   "note": "that the keys do not collide is a hypothesis."
  },
  {
   "property": "C133",
   "status": "proved",
   "theorems": [
    "C133_as_if_alone",
    "C133_only_of_its_host"
   ],
   "note": "relates any schedule to serve_conn of the sequential model."
  },
  {
   "property": "C134",
   "status": "proved",
   "theorems": [
    "C134_others_cannot_delay"
   ],
   "note": "counts effects of the connection itself; time spent waiting for the network or the handler is not counted."
  },
  {
   "property": "C135",
   "status": "partial",
   "theorems": [
    "C135_unique_names_refuted",
    "C135_unique_names_partial"
   ],
   "note": "refuted: two POST requests under one name that overlap both pass the check before either stores, and both are answered 201. The partial theorem covers every POST that begins while the name is registered."
  },
  {
   "property": "C136",
   "status": "proved",
   "theorems": [
    "C136_introduced"
   ],
   "note": "the notification is sent; whether the program of the notified user acts on it is C142-C144."
  },
  {
   "property": "C137",
   "status": "proved",
   "theorems": [
    "C137_farewell"
   ],
   "note": "as C136."
  },
  {
   "property": "C138",
   "status": "proved",
   "theorems": [
    "C138_listing",
    "C138_not_listed"
   ],
   "note": "sync.Map.Range is modelled by its documentation."
  },
  {
   "property": "C139",
   "status": "partial",
   "theorems": [
    "C139_last_word_refuted",
    "C139_last_word_partial"
   ],
   "note": "refuted: a registration under way tells the new user about one that leaves meanwhile, after the notification of the departure. The partial theorem covers requests that begin after the departure."
  },
  {
   "property": "C14",
   "status": "proved",
   "theorems": [
    "C14_nonce_shape",
    "C14_nonce_injective"
   ],
   "note": ""
  },
  {
   "property": "C140",
   "status": "partial",
   "theorems": [
    "C140_removes_itself_refuted",
    "C140_removes_itself_partial",
    "C140_removes_exactly"
   ],
   "note": "refuted: the name is put into the URL unescaped; the user \"ana#2\" removes \"ana\". The partial theorem covers names without bytes that mean something in a URL; C140_removes_exactly says for every name which user it removes."
  },
  {
   "property": "C141",
   "status": "partial",
   "theorems": [
    "C141_no_panic_refuted",
    "C141_no_panic_partial"
   ],
   "note": "refuted: DELETE /users slices beyond the end of the path. The partial theorem covers all paths under /users/."
  },
  {
   "property": "C142",
   "status": "partial",
   "theorems": [
    "C142_alive_refuted",
    "C142_alive_partial",
    "C142_goes_on_partial"
   ],
   "note": "refuted: for an unknown network the handler answers 500 but does not return, and stores a nil connection; the next message ends the program, or the departure locks the mutex for ever. The partial theorem covers users with tcp or udp."
  },
  {
   "property": "C143",
   "status": "partial",
   "theorems": [
    "C143_no_leak_refuted",
    "C143_no_leak_partial"
   ],
   "note": "refuted: a second announcement of a user replaces the connection without closing it, and the registry announces twice when registrations overlap. The partial theorem covers traces in which nobody joins who is there already."
  },
  {
   "property": "C144",
   "status": "proved",
   "theorems": [
    "C144_to_everyone"
   ],
   "note": "that a write over the connection arrives is C45 and others; errors of Write are ignored by the code."
  },
  {
   "property": "C145",
   "status": "partial",
   "theorems": [
    "C145_sender_refuted"
   ],
   "note": "refuted: the name is taken from the message, an empty one is shown as the user's own name. Clients are not authenticated."
  },
  {
   "property": "C146",
   "status": "proved",
   "theorems": [
    "C146_grounds"
   ],
   "note": "order of events within the log is not part of the statement."
  },
  {
   "property": "C147",
   "status": "proved",
   "theorems": [
    "C147_among_others",
    "C147_other_hosts"
   ],
   "note": "both with replies and fire-and-forget. The network delivers in order and loses nothing, deadlines do not expire, the key is in place (undisturbed); sharing the session excluded by the hypothesis spares, or for other hosts by the absence of collisions."
  },
  {
   "property": "C148",
   "status": "proved",
   "theorems": [
    "C148_waits_when_full"
   ],
   "note": "a connection counts as open until its Client.close ran, even if it is dead."
  },
  {
   "property": "C149",
   "status": "proved",
   "theorems": [
    "C149_read_in_time",
    "C149_request_in_time"
   ],
   "note": ""
  },
  {
   "property": "C15",
   "status": "proved",
   "theorems": [
    "C15_client_nonces_unique",
    "C15_what_is_sent"
   ],
   "note": ""
  },
  {
   "property": "C150",
   "status": "proved",
   "theorems": [
    "C150_panics_are_theirs",
    "C150_handler"
   ],
   "note": "a panic inside the runtime or a library (out of memory, for instance) is not in the model."
  },
  {
   "property": "C151",
   "status": "proved",
   "theorems": [
    "C151_udp_among_others",
    "C151_other_hosts"
   ],
   "note": "for clients that expect replies. No datagram is lost, duplicated or reordered, replies come from the server's address, deadlines do not expire, datagrams are at most 65507 octets, the key is in place (undisturbed); sharing the session excluded by uspares, or for other hosts by the absence of collisions."
  },
  {
   "property": "C152",
   "status": "proved",
   "theorems": [
    "C152_dead_fails"
   ],
   "note": "without deadlines; C91 says what a write deadline left on the connection does to the test."
  },
  {
   "property": "C153",
   "status": "partial",
   "theorems": [
    "C153_duplex_refuted",
    "C153_duplex_partial",
    "C153_in_time_partial"
   ],
   "note": "refuted: over UDP a Write in the middle of a Read makes the Read continue in the next datagram, so both answers are lost. Over TCP it holds (partial): answers not empty and not longer than the buffer, no deadline expires, fields are accessed in single steps (Go's race detector would complain)."
  },
  {
   "property": "C154",
   "status": "proved",
   "theorems": [
    "C154_forward_secrecy"
   ],
   "note": "symbolic model: perfect cryptography, the attacker is the network. A client of a pool counts as one client with its session."
  },
  {
   "property": "C155",
   "status": "proved",
   "theorems": [
    "C155_agreement"
   ],
   "note": "symbolic model."
  },
  {
   "property": "C156",
   "status": "proved",
   "theorems": [
    "C156_secrecy"
   ],
   "note": "symbolic model; messages of applications are atoms or things the attacker knows."
  },
  {
   "property": "C157",
   "status": "proved",
   "theorems": [
    "C157_requests_genuine",
    "C157_handled_once",
    "C157_answers_genuine"
   ],
   "note": "symbolic model; that a counter is used once by each side is a premise of its steps, proved of the octet model in C15 and C19."
  },
  {
   "property": "C158",
   "status": "partial",
   "theorems": [
    "C158_fetched_key_refuted",
    "C158_fetched_key_partial"
   ],
   "note": "refuted: with a key fetched over the protocol itself the attacker can take the server's place and read everything, as the README warns. With the server's own key it holds (partial)."
  },
  {
   "property": "C159",
   "status": "proved",
   "theorems": [
    "C159_nonce_once"
   ],
   "note": "symbolic model."
  },
  {
   "property": "C16",
   "status": "partial",
   "theorems": [
    "C16_exhaustion_is_final_refuted",
    "C16_exhaustion_is_final_partial"
   ],
   "note": "refuted: one write fails at the wrap of the counter, the next reuses the first nonce under the same key; proved that the failing Write itself encrypts and sends nothing"
  },
  {
   "property": "C160",
   "status": "proved",
   "theorems": [
    "C160_loss_costs_one_exchange"
   ],
   "note": "datagrams are lost or arrive, but not late (C86) and not twice; handlers that reply with at least one octet."
  },
  {
   "property": "C161",
   "status": "partial",
   "theorems": [
    "C161_duplicates_harmless_refuted",
    "C161_duplicates_safe_partial"
   ],
   "note": "refuted: the refusal of the copy is taken for the answer to the next message, and from then on every Read fails, for ever. The handler gets each message once and no Read gives a wrong reply (partial)."
  },
  {
   "property": "C162",
   "status": "partial",
   "theorems": [
    "C162_written_order_refuted",
    "C162_arrivals_partial",
    "C162_in_window_partial"
   ],
   "note": "refuted: datagrams that change places are handled in the order of arrival. Each is handled at most once, and all that are less than 64 behind are handled (partial)."
  },
  {
   "property": "C163",
   "status": "partial",
   "theorems": [
    "C163_requests_finish_refuted",
    "C163_answer_lost_refuted",
    "C163_requests_finish_partial",
    "C163_connection_drained_partial"
   ],
   "note": "refuted for UDP: Close does not wait for datagrams, the socket is closed and the answer is lost. It holds for TCP (partial)."
  },
  {
   "property": "C164",
   "status": "proved",
   "theorems": [
    "C164_udp_port_released"
   ],
   "note": "without a read timeout Receive may last until the next datagram (C67); no fairness is modelled: the goroutine can always take its next step."
  },
  {
   "property": "C165",
   "status": "proved",
   "theorems": [
    "C165_any_order",
    "C165_timely",
    "C165_few"
   ],
   "note": "the handshake that made the session is over and nobody else uses its entry of the secret manager; in general a message may be refused as a replay (C104), the theorem says that this is told to its client and is the only thing that can happen."
  },
  {
   "property": "C166",
   "status": "proved",
   "theorems": [
    "C166_connections_wind_down"
   ],
   "note": "without a read timeout reading may last until the client sends or closes (C67); no fairness is modelled: the goroutine can always take its next step."
  },
  {
   "property": "C167",
   "status": "partial",
   "theorems": [
    "C167_all_handled_refuted",
    "C167_handled_partial",
    "C167_few_partial"
   ],
   "note": "refuted: between taking its counter and sending a goroutine may be overtaken by 64 messages of others, then the server refuses its message although Write succeeded. What holds (partial): every schedule ends, whole requests with different counters, the handler gets exactly what a 64-window accepts, and everything if there are at most 64 messages; TCP, no write fails, fields are accessed in single steps."
  },
  {
   "property": "C168",
   "status": "partial",
   "theorems": [
    "C168_rotation_refuted",
    "C168_rotation_partial"
   ],
   "note": "refuted: the time to live counts from a reading of the clock after the fetcher answered, so a goroutine that is slow in between brings the old key back for another TTL. What holds (partial): true if no call holds an unstored answer when the key changes. Without expiry the old key is used for ever (C55_no_expiry), and a failed handshake does not remove it."
  },
  {
   "property": "C169",
   "status": "partial",
   "theorems": [
    "C169_order_refuted",
    "C169_order_partial"
   ],
   "note": "refuted: an answer that can be authenticated comes from a signed zone, which has zone-signing keys of its own; the first zone-signing record is taken for the server's key, and for each there is an order in which it comes first. What holds (partial): if all zone-signing records of the answer hold the server's key, it is found in any order, among key-signing and unreadable records."
  },
  {
   "property": "C17",
   "status": "proved",
   "theorems": [
    "C17_reply_nonces_unique",
    "C17_direction"
   ],
   "note": "per session; that two sessions have different secrets rests on the random source"
  },
  {
   "property": "C170",
   "status": "proved",
   "theorems": [
    "C170_quick_start"
   ],
   "note": "The quick start of the README: fetch over the protocol, dial, Write and io.ReadAll, on a server that serves others at the same time, in any order of steps. Replies are non-empty (an empty one is the finding of C47)."
  },
  {
   "property": "C171",
   "status": "proved",
   "theorems": [
    "C171_udp_quick_start"
   ],
   "note": "The quick start over UDP, in any order of steps and among any datagrams of others, on a network that loses nothing (a lost datagram: C160). Replies are non-empty and fit a datagram."
  },
  {
   "property": "C172",
   "status": "partial",
   "theorems": [
    "C172_rest_not_executed_refuted",
    "C172_rest_not_executed_partial"
   ],
   "note": "refuted: without a write timeout, or with one above the read timeout, the server reports a malformed request after the read timeout and goes on to read the rest of it as requests. Partial: an iteration does what it would do without deadlines or changes nothing; with 0 < write timeout <= read timeout (the default is 5 s and 60 s) the connection ends."
  },
  {
   "property": "C173",
   "status": "proved",
   "theorems": [
    "C173_timeout_no_wrong_reply"
   ],
   "note": ""
  },
  {
   "property": "C174",
   "status": "partial",
   "theorems": [
    "C174_read_again_refuted",
    "C174_read_again_partial"
   ],
   "note": "refuted: the octets taken before the deadline are dropped, and the next Read takes the rest of the reply for a new response, so that octets of the ciphertext are reported as an error of the server. Partial: if nothing of the reply arrived before, Read can be repeated any number of times and returns the reply."
  },
  {
   "property": "C175",
   "status": "partial",
   "theorems": [
    "C175_no_amplification_refuted",
    "C175_no_amplification_partial"
   ],
   "note": "refuted: a datagram of one octet that asks for the public key is answered with the whole key (10 octets and the PKIX encoding) to the source address it bears. Partial: unless the handler is called there is at most one datagram in answer, of at most max(65, 54 + signature, 10 + key) octets."
  },
  {
   "property": "C176",
   "status": "partial",
   "theorems": [
    "C176_key_in_dns_refuted",
    "C176_key_in_dns_partial"
   ],
   "note": "refuted: a signed zone has zone-signing keys of its own among the DNSKEY records; for each of them there is an order of the records with which the default client rejects the genuine server. Partial: if the server's key is the only zone-signing key of the name, the default client dials and talks, in any order of the records, on a server that serves others."
  },
  {
   "property": "C177",
   "status": "partial",
   "theorems": [
    "C177_write_again_refuted",
    "C177_write_again_partial"
   ],
   "note": "refuted: if the connection took part of a request (34 octets or more), the server takes the beginning of the next Write's request for the rest, answers \"failed to decrypt message\" and calls no handler; nothing in the client closes or marks the connection. Partial: Writes that fail without sending anything can be repeated any number of times."
  },
  {
   "property": "C178",
   "status": "partial",
   "theorems": [
    "C178_pause_refuted",
    "C178_pause_partial",
    "C178_manager_is_the_map"
   ],
   "note": "refuted: after a pause longer than the TTL that a collection falls into, every later message of the client is answered with error 3, for ever; the client does not set up its session again. Partial: with pauses within the TTL any number of messages is handled and answered; and the in-memory manager refines the map of the server's model."
  },
  {
   "property": "C179",
   "status": "partial",
   "theorems": [
    "C179_repeat_handled_once_refuted",
    "C179_repeat_at_least_once_partial"
   ],
   "note": "refuted: every attempt is a request with a counter of its own, so the message is handled once more for every reply that was lost. Partial: the application has the reply exactly when some attempt got through both ways; then the message was handled at least once, never more often than sent, and at most once if no reply was lost."
  },
  {
   "property": "C18",
   "status": "proved",
   "theorems": [
    "C18_window_is_filter",
    "C18_next_answer"
   ],
   "note": ""
  },
  {
   "property": "C180",
   "status": "partial",
   "theorems": [
    "C180_address_of_the_client_refuted",
    "C180_address_partial"
   ],
   "note": "refuted over UDP: whoever sends the client's request from another port of its host before the client's datagram arrives has the handler called with that address and the reply sent there, and the client's Read reports a replay; only the host is part of the session's name. Partial: each call is given the source of the datagram, and that address is on a host under whose name the session is kept."
  },
  {
   "property": "C181",
   "status": "partial",
   "theorems": [
    "C181_setup_twice_harmless_refuted",
    "C181_dial_then_nothing_refuted",
    "C181_setup_copies_partial"
   ],
   "note": "refuted: the server answers every copy of a Setup request with a key pair of its own and keeps the last, the client takes the first answer; from then on the server cannot decrypt anything the client sends and every Read fails, although nobody attacked. Partial: however many copies arrive, no handler is called, the sessions of others stay, and whoever takes the last answer shares the session with the server."
  },
  {
   "property": "C182",
   "status": "partial",
   "theorems": [
    "C182_concurrent_reads_refuted",
    "C182_read_once_refuted",
    "C182_one_at_a_time_partial"
   ],
   "note": "refuted: Read has no lock. For every reply there is an interleaving of two Reads in which both fail and the reply and all that is behind it are lost, because the second takes the counter for the header of an error with a text of at least 2^40 octets; and what is in the buffer can be returned by both. Partial: goroutines that exclude each other get, in whatever order they come, what one goroutine would get."
  },
  {
   "property": "C183",
   "status": "partial",
   "theorems": [
    "C183_other_address_refuted",
    "C183_home_again_partial"
   ],
   "note": "refuted: sessions are kept by host and id, so once the server sees the client at another host every request is refused with 0x03 and the handler is never called, until the client dials again. Partial: the port may change at will, and messages from elsewhere spoil nothing: those from the old host are handled in order, once each, and answered."
  },
  {
   "property": "C184",
   "status": "proved",
   "theorems": [
    "C184_handler_io",
    "C184_reply_is_written",
    "C184_flag_hidden",
    "C184_conversation",
    "C184_echo",
    "C184_udp_conversation"
   ],
   "note": "for handlers that use the reader and the writer through Read and Write only, and not after they have returned."
  },
  {
   "property": "C185",
   "status": "partial",
   "theorems": [
    "C185_restart_refuted",
    "C185_dial_again_partial"
   ],
   "note": "refuted: sessions live in the memory of the server's process, so after a restart every request is refused with 0x03 and Read returns that error for ever; the client never dials by itself. Partial: up to the restart all is answered, and a client that dials anew is served in full."
  },
  {
   "property": "C186",
   "status": "proved",
   "theorems": [
    "C186_persistent_program",
    "C186_moving_program"
   ],
   "note": "restarts, losses of sessions and changes of address fall between exchanges, and datagrams are not lost. The second theorem asks that the ids the dials draw are unknown to the server and do not meet under the session hash at the hosts visited."
  },
  {
   "property": "C19",
   "status": "proved",
   "theorems": [
    "C19_no_counter_twice"
   ],
   "note": ""
  },
  {
   "property": "C20",
   "status": "proved",
   "theorems": [
    "C20_reordering_accepted",
    "C20_increasing_accepted"
   ],
   "note": ""
  },
  {
   "property": "C21",
   "status": "partial",
   "theorems": [
    "C21_window_64_behind_refuted",
    "C21_window_64_behind_partial"
   ],
   "note": "refuted: the bitmap includes the highest counter itself, so only 63 counters below it are tracked; the counter exactly 64 below is rejected even if never seen. partial: a lag of up to 63 is accepted."
  },
  {
   "property": "C22",
   "status": "proved",
   "theorems": [
    "C22_serialisable",
    "C22_at_most_one_winner",
    "C22_exactly_one_winner"
   ],
   "note": "every access to the window fields and to the mutex is one step; sequentially consistent memory (the accesses are mutex-protected)."
  },
  {
   "property": "C23",
   "status": "proved",
   "theorems": [
    "C23_load_is_latest_store",
    "C23_stored_is_loaded",
    "C23_other_ids_unaffected",
    "C23_never_stored",
    "C23_interleaved_ids_never_mix"
   ],
   "note": "for histories of completed calls; interleaved calls: see C25 and C26."
  },
  {
   "property": "C24",
   "status": "proved",
   "theorems": [
    "C24_recently_used_survives",
    "C24_idle_is_collected",
    "C24_no_ttl_no_collection"
   ],
   "note": "for collections that do not overlap other calls; overlapping: see C25. Time stamps are arbitrary integers."
  },
  {
   "property": "C25",
   "status": "partial",
   "theorems": [
    "C25_load_refreshes_refuted",
    "C25_load_refreshes_partial"
   ],
   "note": "refuted: the collector's check and its delete are separate operations; a Load completed in between is undone. For non-overlapping operations the guarantee is C24. Proved when nothing else on the id is in progress at the last step of the Load."
  },
  {
   "property": "C26",
   "status": "partial",
   "theorems": [
    "C26_store_survives_load_refuted",
    "C26_store_survives_load_partial"
   ],
   "note": "refuted: Load is a map read followed by a map write of the item read, so a Store completed in between is overwritten by the old session. For non-overlapping operations the guarantee is C23. Proved when nothing else on the id is in progress at the last step of the Store."
  },
  {
   "property": "C27",
   "status": "proved",
   "theorems": [
    "C27_isolation",
    "C27_one_creator",
    "C27_only_loaded"
   ],
   "note": ""
  },
  {
   "property": "C28",
   "status": "proved",
   "theorems": [
    "C28_unknown_session",
    "C28_states_start",
    "C28_states_stay"
   ],
   "note": "for every server state, transport and request; wf describes exactly invariants kept by every execution"
  },
  {
   "property": "C29",
   "status": "proved",
   "theorems": [
    "C29_authentic"
   ],
   "note": ""
  },
  {
   "property": "C30",
   "status": "proved",
   "theorems": [
    "C30_at_most_once"
   ],
   "note": ""
  },
  {
   "property": "C31",
   "status": "proved",
   "theorems": [
    "C31_replay_refused",
    "C31_history_exists"
   ],
   "note": "refusal characterised by the set-based filter over the session's history"
  },
  {
   "property": "C32",
   "status": "partial",
   "theorems": [
    "C32_forgery_has_no_effect_refuted",
    "C32_lost_delivery_refuted",
    "C32_forged_never_opens",
    "C32_unauthentic_partial"
   ],
   "note": "refuted: the replay window is updated before authentication, so an unauthenticated request with counter 2^64-1 makes every later authentic request be refused; proved that nothing else is affected"
  },
  {
   "property": "C33",
   "status": "proved",
   "theorems": [
    "C33_accepted_request",
    "C33_one_response"
   ],
   "note": ""
  },
  {
   "property": "C34",
   "status": "proved",
   "theorems": [
    "C34_setup",
    "C34_setup_succeeds"
   ],
   "note": "all outcomes enumerated with their causes"
  },
  {
   "property": "C35",
   "status": "partial",
   "theorems": [
    "C35_refused_setup_changes_nothing_refuted",
    "C35_refused_setup_partial"
   ],
   "note": "refuted: the session is stored before signing, so a signing failure is answered with an error but replaces the session; proved for all other failures"
  },
  {
   "property": "C36",
   "status": "proved",
   "theorems": [
    "C36_framing"
   ],
   "note": "for every sequence of write outcomes and every prefix of the connection"
  },
  {
   "property": "C37",
   "status": "proved",
   "theorems": [
    "C37_pipelining",
    "C37_all_handled",
    "C37_stays_open",
    "C37_connection_ends"
   ],
   "note": ""
  },
  {
   "property": "C38",
   "status": "proved",
   "theorems": [
    "C38_other_versions",
    "C38_other_actions"
   ],
   "note": ""
  },
  {
   "property": "C39",
   "status": "partial",
   "theorems": [
    "C39_version_answered_refuted"
   ],
   "note": "refuted: no unsupported version is ever answered. What holds: C38 (no effect, no reinterpretation)."
  },
  {
   "property": "C40",
   "status": "partial",
   "theorems": [
    "C40_not_reinterpreted_refuted",
    "C40_bad_key_consumed_partial"
   ],
   "note": "refuted: after an oversized announced key the announced content is executed as requests"
  },
  {
   "property": "C41",
   "status": "proved",
   "theorems": [
    "C41_handler_contained",
    "C41_error_and_panic"
   ],
   "note": ""
  },
  {
   "property": "C42",
   "status": "proved",
   "theorems": [
    "C42_transcript_binds",
    "C42_code_transcript_binds"
   ],
   "note": ""
  },
  {
   "property": "C43",
   "status": "proved",
   "theorems": [
    "C43_accepts_only_signed",
    "C43_agreement"
   ],
   "note": "unforgeability of the signature scheme is not modelled; the theorems say which signature was verified and what the server holds if it made one"
  },
  {
   "property": "C44",
   "status": "partial",
   "theorems": [
    "C44_dial_never_panics_refuted",
    "C44_panic_causes_partial"
   ],
   "note": "refuted: an unknown hash octet in the Setup response panics; the partial theorem lists all causes"
  },
  {
   "property": "C45",
   "status": "proved",
   "theorems": [
    "C45_key_agreement",
    "C45_round_trip",
    "C45_conversation"
   ],
   "note": ""
  },
  {
   "property": "C46",
   "status": "proved",
   "theorems": [
    "C46_pieces",
    "C46_pieces_make_the_reply"
   ],
   "note": "for non-empty replies; the empty reply is C47"
  },
  {
   "property": "C47",
   "status": "partial",
   "theorems": [
    "C47_empty_reply_is_eof_refuted",
    "C47_empty_reply_is_eof_partial"
   ],
   "note": "refuted: io.EOF only for an empty buffer, otherwise a wrapped error; proved that the empty reply is consumed entirely and never taken for data"
  },
  {
   "property": "C48",
   "status": "proved",
   "theorems": [
    "C48_reads_replies",
    "C48_reply_is_own"
   ],
   "note": "unforgeability is not modelled: the theorem says what follows if the server, resp. a client, made the ciphertext"
  },
  {
   "property": "C49",
   "status": "partial",
   "theorems": [
    "C49_reply_at_most_once_refuted",
    "C49_other_reply_refused_partial"
   ],
   "note": "refuted: a copy of the reply to the last request is delivered again; replies to other requests are refused"
  },
  {
   "property": "C50",
   "status": "partial",
   "theorems": [
    "C50_write_reports_len_refuted",
    "C50_write_reports_len_partial"
   ],
   "note": "refuted: Write returns the length of the request on the wire, len(p)+50; partial: a nil error means one whole request carrying p was sent."
  },
  {
   "property": "C51",
   "status": "proved",
   "theorems": [
    "C51_signed_verifies",
    "C51_sign_domain",
    "C51_sign_no_panic",
    "C51_ed25519_signs",
    "C51_verify_exact",
    "C51_verify_unsupported"
   ],
   "note": "correctness of the primitives is an assumption (CryptoLaws)"
  },
  {
   "property": "C52",
   "status": "proved",
   "theorems": [
    "C52_round_trip",
    "C52_range_exact",
    "C52_records_differ",
    "C52_readable"
   ],
   "note": ""
  },
  {
   "property": "C53",
   "status": "partial",
   "theorems": [
    "C53_malformed_is_error_refuted",
    "C53_partial"
   ],
   "note": "refuted: malformed material of a zone-signing record is reported as success with an interface holding nil; the partial theorem characterises all other outcomes exactly"
  },
  {
   "property": "C54",
   "status": "proved",
   "theorems": [
    "C54_selection",
    "C54_otherwise_fails"
   ],
   "note": "parses to a key means what ParseDNSKEY reports, see C53 and C77; JSON decoding is not modelled"
  },
  {
   "property": "C55",
   "status": "proved",
   "theorems": [
    "C55_cached_is_fresh",
    "C55_calls",
    "C55_no_expiry"
   ],
   "note": ""
  },
  {
   "property": "C56",
   "status": "proved",
   "theorems": [
    "C56_derive_key",
    "C56_same_key",
    "C56_rfc5869",
    "C56_session_key"
   ],
   "note": ""
  },
  {
   "property": "C57",
   "status": "proved",
   "theorems": [
    "C57_uuid_v4"
   ],
   "note": ""
  },
  {
   "property": "C58",
   "status": "proved",
   "theorems": [
    "C58_one_session"
   ],
   "note": ""
  },
  {
   "property": "C59",
   "status": "partial",
   "theorems": [
    "C59_refuted",
    "C59_partial"
   ],
   "note": "refuted: a connection found dead is put back and counted down; C59_partial: the count is exact if none was found dead and the pool was not closed"
  },
  {
   "property": "C60",
   "status": "partial",
   "theorems": [
    "C60_refuted",
    "C60_partial"
   ],
   "note": "refuted: a client given back between the unlock and the receive of a waiting Get goes idle and the Get waits for ever"
  },
  {
   "property": "C61",
   "status": "partial",
   "theorems": [
    "C61_refuted",
    "C61_dead_forever",
    "C61_partial"
   ],
   "note": "refuted: the dead connection is put back to the idle list and taken again; partial: what Get returns was just tested or dialled."
  },
  {
   "property": "C62",
   "status": "partial",
   "theorems": [
    "C62_refuted",
    "C62_leftover_read",
    "C62_partial"
   ],
   "note": "refuted: the read buffer survives giving a client back. partial: borrowers that use a client only while they have it and read all of a reply leave nothing."
  },
  {
   "property": "C63",
   "status": "partial",
   "theorems": [
    "C63_refuted",
    "C63_partial"
   ],
   "note": "refuted: put after Close, Close twice and a waiting Get all panic"
  },
  {
   "property": "C64",
   "status": "proved",
   "theorems": [
    "C64_one_datagram_each_way",
    "C64_one_response"
   ],
   "note": "refinement of the UDP connection to a stream that consists of the datagram; unless the handler panics or sending fails a Process request with reply gets exactly one datagram with one response"
  },
  {
   "property": "C65",
   "status": "partial",
   "theorems": [
    "C65_close_releases_refuted"
   ],
   "note": "refuted: Close of a UDP client does nothing (its write buffer is always empty, udp.go:91): the socket stays open and later writes succeed"
  },
  {
   "property": "C66",
   "status": "proved",
   "theorems": [
    "C66_no_tcp_after_close"
   ],
   "note": "invariant over all schedules"
  },
  {
   "property": "C67",
   "status": "partial",
   "theorems": [
    "C67_no_udp_after_close_refuted",
    "C67_no_udp_after_close_partial"
   ],
   "note": "refuted: the UDP listener is not in the WaitGroup and stays in Receive; a datagram that arrives after Close returned is handled; partial: at most one more datagram per listener."
  },
  {
   "property": "C68",
   "status": "partial",
   "theorems": [
    "C68_late_request_answered_refuted",
    "C68_late_request_answered_partial"
   ],
   "note": "refuted: the write deadline is set when the server begins to wait for the request, so a request arriving after the write timeout but before the read timeout is handled but not answered and the connection is closed. Partial: a connection on which every request is answered within both timeouts behaves as one without deadlines."
  },
  {
   "property": "C69",
   "status": "proved",
   "theorems": [
    "C69_signs_only_own_handshakes"
   ],
   "note": ""
  },
  {
   "property": "C70",
   "status": "proved",
   "theorems": [
    "C70_what_leaves_the_server"
   ],
   "note": ""
  },
  {
   "property": "C71",
   "status": "partial",
   "theorems": [
    "C71_read_answers_last_write_refuted",
    "C71_read_answers_last_write_partial"
   ],
   "note": "refuted: what is left in the buffer from an earlier reply is returned first; proved for clients whose buffer is empty, over any transport"
  },
  {
   "property": "C72",
   "status": "proved",
   "theorems": [
    "C72_read_write_never_panic"
   ],
   "note": "a data race on a client's buffer by concurrent calls is modelled as atomic accesses"
  },
  {
   "property": "C73",
   "status": "partial",
   "theorems": [
    "C73_errors_are_the_servers_refuted",
    "C73_errors_are_the_servers_partial"
   ],
   "note": "refuted: error responses are not authenticated; proved that a reported error was on the stream with that code and text"
  },
  {
   "property": "C74",
   "status": "partial",
   "theorems": [
    "C74_reply_flag_authenticated_refuted",
    "C74_reply_flag_authenticated_partial"
   ],
   "note": "refuted: the flag is outside the ciphertext and not associated data; partial: message, sessions and position in the stream do not depend on the flag."
  },
  {
   "property": "C75",
   "status": "partial",
   "theorems": [
    "C75_late_reply_harmless_refuted",
    "C75_late_reply_harmless_partial"
   ],
   "note": "refuted: every later exchange reads the previous reply and fails; partial: as many extra Reads as stale replies re-synchronise."
  },
  {
   "property": "C76",
   "status": "partial",
   "theorems": [
    "C76_session_not_replaceable_refuted",
    "C76_session_not_replaceable_partial"
   ],
   "note": "refuted: Setup overwrites the session of the same host and id; proved for Setups of other hosts and ids"
  },
  {
   "property": "C77",
   "status": "partial",
   "theorems": [
    "C77_malformed_does_not_hide_refuted",
    "C77_malformed_does_not_hide_partial"
   ],
   "note": "refuted: the nil key of C53 is selected although a usable record follows; proved for answers without malformed zone-signing records"
  },
  {
   "property": "C78",
   "status": "proved",
   "theorems": [
    "C78_parse_never_panics"
   ],
   "note": ""
  },
  {
   "property": "C79",
   "status": "partial",
   "theorems": [
    "C79_served_until_ttl_refuted",
    "C79_served_until_ttl_partial"
   ],
   "note": "refuted: the collector may delete a newer entry than the expired one it saw; proved when no operation on the host is in progress"
  },
  {
   "property": "C80",
   "status": "proved",
   "theorems": [
    "C80_exclusive"
   ],
   "note": ""
  },
  {
   "property": "C81",
   "status": "partial",
   "theorems": [
    "C81_refuted"
   ],
   "note": "refuted: a client closed twice is idle twice and handed to two borrowers. What holds: C80 (one borrower at a time as long as nobody closes a client twice)."
  },
  {
   "property": "C82",
   "status": "proved",
   "theorems": [
    "C82_no_leak",
    "C82_close_closes_all"
   ],
   "note": ""
  },
  {
   "property": "C83",
   "status": "proved",
   "theorems": [
    "C83_mutex_released"
   ],
   "note": ""
  },
  {
   "property": "C84",
   "status": "partial",
   "theorems": [
    "C84_oversize_reported_refuted"
   ],
   "note": "refuted: the write into the buffer succeeds, the WriteTo in Close fails and is only logged; no datagram is sent. What holds: C64 and C151 (answers that fit a datagram)."
  },
  {
   "property": "C85",
   "status": "proved",
   "theorems": [
    "C85_garbage_is_dropped"
   ],
   "note": ""
  },
  {
   "property": "C86",
   "status": "partial",
   "theorems": [
    "C86_late_datagram_refuted",
    "C86_no_recovery_refuted"
   ],
   "note": "refuted: every later Read fails with a counter mismatch; C85 is the part that holds (leftover octets within a datagram); over UDP extra Reads do not help either."
  },
  {
   "property": "C87",
   "status": "proved",
   "theorems": [
    "C87_late_connections"
   ],
   "note": ""
  },
  {
   "property": "C88",
   "status": "partial",
   "theorems": [
    "C88_close_once_is_safe_refuted",
    "C88_close_once_is_safe_partial"
   ],
   "note": "refuted: wg.Add in the accept loop races with wg.Wait in Close: the process may crash (Add called concurrently with Wait) or Close may panic (reused before Wait returned); partial: neither happens if no connection is counted after close(quit)"
  },
  {
   "property": "C89",
   "status": "partial",
   "theorems": [
    "C89_close_twice_refuted"
   ],
   "note": "refuted: close of a closed channel; every second Close panics. What holds: C88_partial (closing once)."
  },
  {
   "property": "C90",
   "status": "partial",
   "theorems": [
    "C90_dial_times_out_refuted",
    "C90_dial_times_out_partial"
   ],
   "note": "refuted: the handshake sets no deadline; a silent server holds up Dial as long as it likes. partial: the handshake ends when the last octet and the end of the stream have arrived."
  },
  {
   "property": "C91",
   "status": "partial",
   "theorems": [
    "C91_idle_usable_refuted",
    "C91_idle_usable_partial"
   ],
   "note": "refuted: the write deadline of the last Write stays on the idle connection and testOnBorrow sets no new one, so after the write timeout the test always fails without sending anything. Proved for idle times below the write timeout."
  },
  {
   "property": "C92",
   "status": "partial",
   "theorems": [
    "C92_port_released_refuted",
    "C92_port_released_partial"
   ],
   "note": "refuted: Close does not close the listener; the accept loop stays in Accept until a client connects partial: one more connection or an error of Accept ends the listener."
  },
  {
   "property": "C93",
   "status": "proved",
   "theorems": [
    "C93_close_can_return"
   ],
   "note": "possibility statement: from any state in Close there are steps, without new connections, after which Close has returned"
  },
  {
   "property": "C94",
   "status": "proved",
   "theorems": [
    "C94_close_waits"
   ],
   "note": "connections accepted but not yet given to a goroutine are outside of it, see C88"
  },
  {
   "property": "C95",
   "status": "partial",
   "theorems": [
    "C95_silent_client_refuted"
   ],
   "note": "refuted: while a connection goroutine is in its blocking read no Close has returned; only the read timeout (60 s unless changed, none if set to 0) ends it. What holds: C93 and C96 (with a read timeout)."
  },
  {
   "property": "C96",
   "status": "proved",
   "theorems": [
    "C96_stalling_bounded"
   ],
   "note": ""
  },
  {
   "property": "C97",
   "status": "partial",
   "theorems": [
    "C97_tested_is_usable_refuted",
    "C109_hello"
   ],
   "note": "refuted: the test takes the first octet of an unread reply for the answer to its Hello; the rest stays in the stream for the next borrower. Proved for connections with nothing unread (C109)."
  },
  {
   "property": "C98",
   "status": "partial",
   "theorems": [
    "C98_user_deadline_write_refuted",
    "C98_user_deadline_read_refuted",
    "C98_user_deadline_read_partial",
    "C98_user_deadline_write_partial"
   ],
   "note": "refuted: with the timeouts switched on, as they are by default, Read and Write overwrite the deadline set by the user. Proved with the timeouts switched off."
  },
  {
   "property": "C99",
   "status": "proved",
   "theorems": [
    "C99_read_all",
    "C99_read_full"
   ],
   "note": "for non-empty replies (an empty reply is an error, C47)."
  }
 ]
}