{
 "claims": [
  {
   "property": "C01",
   "status": "proved",
   "theorems": [
    "C01_vlu_roundtrip",
    "C01_vlu_minimal"
   ],
   "note": ""
  },
  {
   "property": "C02",
   "status": "proved",
   "theorems": [
    "C02_vlu_parse_bounded"
   ],
   "note": ""
  },
  {
   "property": "C03",
   "status": "proved",
   "theorems": [
    "C03_options_roundtrip",
    "C03_option_parse_sound",
    "C03_option_parse_defined"
   ],
   "note": ""
  },
  {
   "property": "C04",
   "status": "proved",
   "theorems": [
    "C04_assembler_refines",
    "C04_assembler_refines_plain"
   ],
   "note": ""
  },
  {
   "property": "C05",
   "status": "proved",
   "theorems": [
    "C05_assembled_packet_reparses"
   ],
   "note": ""
  },
  {
   "property": "C06",
   "status": "proved",
   "theorems": [
    "C06_parse_defined",
    "C06_parse_inside"
   ],
   "note": ""
  },
  {
   "property": "C07",
   "status": "proved",
   "theorems": [
    "C07_session_id_roundtrip"
   ],
   "note": ""
  },
  {
   "property": "C08",
   "status": "proved",
   "theorems": [
    "C08_indexset_is_set",
    "C08_indexset_canonical",
    "C08_indexset_extremes",
    "C08_indexset_size_iteration",
    "C08_indices_do_refuted"
   ],
   "note": ""
  },
  {
   "property": "C09",
   "status": "proved",
   "theorems": [
    "C09_list_refines",
    "C09_names_stable"
   ],
   "note": ""
  },
  {
   "property": "C10",
   "status": "proved",
   "theorems": [
    "C10_sum_is_total",
    "C10_sum_unchecked_ops_refuted"
   ],
   "note": ""
  },
  {
   "property": "C11",
   "status": "proved",
   "theorems": [
    "C11_fragments",
    "C11_write_goes"
   ],
   "note": ""
  },
  {
   "property": "C12",
   "status": "proved",
   "theorems": [
    "C12_in_order",
    "C12_exactly_once"
   ],
   "note": ""
  },
  {
   "property": "C13",
   "status": "proved",
   "theorems": [
    "C13_at_most_once",
    "C13_exactly_once"
   ],
   "note": ""
  },
  {
   "property": "C14",
   "status": "partial",
   "theorems": [
    "C14_any_peer_partial",
    "C14_hold_no_exception",
    "C14_sequence_order_refuted",
    "C14_network_order_refuted"
   ],
   "note": "The full statement (no exception in any receive order) is false of the code: C14_sequence_order_refuted and C14_network_order_refuted exhibit short fragment sequences on which an uncaught std::out_of_range leaves RecvFlow. What holds for all inputs: no undefined behaviour and message integrity (C14_any_peer_partial), and no exception in RO_HOLD."
  },
  {
   "property": "C15",
   "status": "proved",
   "theorems": [
    "C15_acks_truthful",
    "C15_arbitrary_bytes"
   ],
   "note": ""
  },
  {
   "property": "C16",
   "status": "proved",
   "theorems": [
    "C16_cumulative_ack",
    "C16_monotone"
   ],
   "note": ""
  },
  {
   "property": "C17",
   "status": "partial",
   "theorems": [
    "C17_flow_accounts",
    "C17_outstanding_exact",
    "C17_session_accounts",
    "C17_never_fails",
    "C17_after_close_refuted"
   ],
   "note": "Proved for every execution while the session is open, including that no step underflows or removes a missing name. Refuted after the session closes: m_outstanding_bytes keeps its last value (C17_after_close_refuted)."
  },
  {
   "property": "C18",
   "status": "proved",
   "theorems": [
    "C18_safe",
    "C18_prefix",
    "C18_complete"
   ],
   "note": "Sender and receiver models joined by a network that drops, duplicates, delays and reorders packets; also that nothing goes wrong at either end, and that everything was delivered once the sender's queue is empty."
  },
  {
   "property": "C19",
   "status": "proved",
   "theorems": [
    "C19_whole_in_order",
    "C19_forward_truthful",
    "C19_stall_refuted"
   ],
   "note": "C19_stall_refuted shows in addition that the forward sequence number may never be sent: an abandoned first fragment is trimmed while a later one is in flight, and the arrived later messages stay undelivered until something new is written."
  },
  {
   "property": "C20",
   "status": "proved",
   "theorems": [
    "C20_at_most_once",
    "C20_exactly_once",
    "C20_final",
    "C20_late_callback_refuted"
   ],
   "note": "Assumes the issuer's discipline of SendFlow::basicWrite (all holds taken first) and a callback set at most once, not after abandonment; C20_late_callback_refuted shows the last assumption is needed."
  },
  {
   "property": "C21",
   "status": "partial",
   "theorems": [
    "C21_transitive_partial",
    "C21_only_earlier",
    "C21_delivered_between_refuted",
    "C21_expire"
   ],
   "note": "The full statement is false when a receipt in between was delivered: C21_delivered_between_refuted. Proved with that proviso (C21_transitive_partial), and the 'never because of a later one' half in full (C21_only_earlier)."
  },
  {
   "property": "C22",
   "status": "proved",
   "theorems": [
    "C22_defined",
    "C22_at_most_once",
    "C22_late",
    "C22_flush",
    "C22_holds_back",
    "C22_released",
    "C22_uninitialised_refuted",
    "C22_close_in_callback_refuted",
    "C22_assertion_refuted"
   ],
   "note": "Proved under the conditions in the theorems; the cases outside are the C22_*_refuted theorems."
  },
  {
   "property": "C23",
   "status": "proved",
   "theorems": [
    "C23_safe",
    "C23_punctual",
    "C23_in_order",
    "C23_none_left",
    "C23_none_forgotten",
    "C23_ends",
    "C23_sleep",
    "C23_wake",
    "C23_self_add_refuted"
   ],
   "note": "Order: an action runs before one due later unless its timer entered the list, or was moved in it, after the later one had been called (C23_in_order). Safety needs that no action calls addTimer on its own timer; C23_self_add_refuted shows a recurring timer doing so changes its sort key inside the set. Whole ticks instead of long double."
  },
  {
   "property": "C24",
   "status": "partial",
   "theorems": [
    "C24_next",
    "C24_phase",
    "C24_after_now_refuted"
   ],
   "note": "Refuted in part as stated: the next due time is strictly after the last, in phase, and with catch-up not before now and at most one interval after it, but it can equal now (C24_after_now_refuted); without catch-up it is exactly one interval later and may be in the past. Whole ticks instead of long double."
  },
  {
   "property": "C25",
   "status": "proved",
   "theorems": [
    "C25_order",
    "C25_wakeup",
    "C25_read",
    "C25_ends",
    "C25_all_done",
    "C25_close_refuted"
   ],
   "note": "Proved for every number of threads and interleaving up to close, with completion of every task. close() drops queued items: a waiting thread then waits for ever (C25_close_refuted)."
  },
  {
   "property": "C26",
   "status": "proved",
   "theorems": [
    "C26_release",
    "C26_count",
    "C26_held",
    "C26_until",
    "C26_isolated",
    "C26_destroy",
    "C26_undisciplined_refuted"
   ],
   "note": "The statements about held flows assume the discipline of use (a flow on hold does not sync, its owner leaves its order alone while it waits); without it C26_undisciplined_refuted. Release and counting need no discipline."
  },
  {
   "property": "C27",
   "status": "partial",
   "theorems": [
    "C27_wire",
    "C27_roundtrip",
    "C27_roundtrip_refuted",
    "C27_exact",
    "C27_fresh"
   ],
   "note": "The round trip is proved for every ID and every count below 2^31; for counts from 2^31 to 2^32-1 it is refuted (C27_roundtrip_refuted): parse sign-extends the count."
  },
  {
   "property": "C28",
   "status": "proved",
   "theorems": [
    "C28_bounds",
    "C28_floor",
    "C28_cut",
    "C28_recovery",
    "C28_growth",
    "C28_total",
    "C28_avoidance",
    "C28_timeout",
    "C28_ecn"
   ],
   "note": "Bounds of the window, growth, halving and timeout behaviour for every sequence of packets and timeouts. Comparisons of times are chosen by the environment; outstanding bytes below 2^56."
  },
  {
   "property": "C29",
   "status": "partial",
   "theorems": [
    "C29_floor",
    "C29_max",
    "C29_max_refuted",
    "C29_grow",
    "C29_measured",
    "C29_alarm"
   ],
   "note": "The floor, growth, return to the measured value and the alarm are proved for any monotone rounding with small error. 'Never exceeds the maximum' is false of the code when the measured timeout exceeds the maximum (C29_max_refuted); C29_max proves it otherwise."
  },
  {
   "property": "C30",
   "status": "partial",
   "theorems": [
    "C30_states",
    "C30_safe",
    "C30_told",
    "C30_told_once",
    "C30_quiet_partial",
    "C30_held_refuted",
    "C30_closes_partial",
    "C30_hang_refuted",
    "C30_orphan_refuted"
   ],
   "note": "Order of states, told exactly once, and no failing assertion are proved for any callbacks. 'No callback after closed' is false for a held complete flow (C30_held_refuted); C30_quiet_partial proves that this is the only exception. Closing ends if the callbacks open no flow to the same endpoint (C30_closes_partial); otherwise it may run for ever or leave a flow behind (C30_hang_refuted, C30_orphan_refuted)."
  },
  {
   "property": "C31",
   "status": "proved",
   "theorems": [
    "C31_fresh",
    "C31_stale",
    "C31_mismatch",
    "C31_unforgeable",
    "C31_defined"
   ],
   "note": ""
  },
  {
   "property": "C32",
   "status": "proved",
   "theorems": [
    "C32_agree",
    "C32_completes",
    "C32_no_group",
    "C32_own_certificate",
    "C32_any_responder",
    "C32_any_initiator",
    "C32_unwilling",
    "C32_retry_refuted",
    "C32_twice_refuted"
   ],
   "note": "For one exchange on fresh keys, with AES, HMAC and Diffie-Hellman as functions meeting cipher_ok, mac_ok and dh_ok. A key that first rejected a forged component, or that combines twice, is not covered: there the claim is refuted (C32_retry_refuted, C32_twice_refuted)."
  },
  {
   "property": "C33",
   "status": "proved",
   "theorems": [
    "C33_decrypt",
    "C33_unique",
    "C33_encrypt",
    "C33_channel",
    "C33_session",
    "C33_plain",
    "C33_plain_handshake",
    "C33_null_refuted"
   ],
   "note": "For usable keys, which successful exchanges produce (C32_agree, C32_any_*). A forged component combined after completion makes the key unusable and encryption undefined (C33_null_refuted). PlainCryptoKey is covered too."
  },
  {
   "property": "C34",
   "status": "proved",
   "theorems": [
    "C34_history",
    "C34_once",
    "C34_verdicts"
   ],
   "note": "The window is 31 numbers: a number exactly 32 behind the highest accepted is refused (the code adds 0..seqno-32 to the received set)."
  },
  {
   "property": "C35",
   "status": "proved",
   "theorems": [
    "C35_priority",
    "C35_round_robin",
    "C35_waiting",
    "C35_watched",
    "C35_ends",
    "C35_reentrant_refuted"
   ],
   "note": "Priority and round robin hold for every behaviour of the sessions. That waiting sessions are always being watched needs sessions which decline not to schedule at a higher priority meanwhile; otherwise a request is stranded (C35_reentrant_refuted)."
  },
  {
   "property": "C36",
   "status": "proved",
   "theorems": [
    "C36_userdata_roundtrip",
    "C36_arbitrary_bytes",
    "C36_arbitrary_packets"
   ],
   "note": ""
  },
  {
   "property": "C37",
   "status": "proved",
   "theorems": [
    "C37_roundtrip",
    "C37_bytes",
    "C37_list",
    "C37_duplicate",
    "C37_injective",
    "C37_deep_refuted"
   ],
   "note": "For values nested no deeper than 32 with strings, keys and arrays within their length fields; deeper ones encode but do not decode (C37_deep_refuted). Doubles are bit patterns."
  },
  {
   "property": "C38",
   "status": "proved",
   "theorems": [
    "C38_decode",
    "C38_stable",
    "C38_all"
   ],
   "note": ""
  },
  {
   "property": "C39",
   "status": "proved",
   "theorems": [
    "C39_roundtrip",
    "C39_wire",
    "C39_decode",
    "C39_equal",
    "C39_order",
    "C39_map",
    "C39_map_down"
   ],
   "note": ""
  },
  {
   "property": "C40",
   "status": "proved",
   "theorems": [
    "C40_roundtrip",
    "C40_exact",
    "C40_byte"
   ],
   "note": ""
  },
  {
   "property": "C41",
   "status": "proved",
   "theorems": [
    "C41_metadata",
    "C41_metadata_exact",
    "C41_message",
    "C41_message_exact"
   ],
   "note": ""
  },
  {
   "property": "C42",
   "status": "proved",
   "theorems": [
    "C42_order",
    "C42_trichotomy",
    "C42_half_range_refuted"
   ],
   "note": ""
  },
  {
   "property": "C43",
   "status": "proved",
   "theorems": [
    "C43_roundtrip",
    "C43_safe"
   ],
   "note": ""
  },
  {
   "property": "C44",
   "status": "proved",
   "theorems": [
    "C44_crc_be_remainder",
    "C44_crc_le_remainder",
    "C44_crc_concat",
    "C44_crc_burst",
    "C44_cksum_value",
    "C44_cksum_verify",
    "C44_cksum_detects",
    "C44_cksum_odd_refuted",
    "C44_cksum_long_refuted"
   ],
   "note": ""
  },
  {
   "property": "C45",
   "status": "proved",
   "theorems": [
    "C45_dots",
    "C45_dot_free",
    "C45_dots_same",
    "C45_split_join",
    "C45_split_fields",
    "C45_split",
    "C45_decode",
    "C45_decode_hex",
    "C45_decode_defined",
    "C45_decode_exact",
    "C45_decode_safe"
   ],
   "note": ""
  },
  {
   "property": "C46",
   "status": "proved",
   "theorems": [
    "C46_adapter",
    "C46_certificate",
    "C46_accepted",
    "C46_agree",
    "C46_canonical",
    "C46_make",
    "C46_plain"
   ],
   "note": ""
  },
  {
   "property": "C47",
   "status": "proved",
   "theorems": [
    "C47_flash",
    "C47_plain",
    "C47_equal_refuted"
   ],
   "note": "Distinct discriminators always give opposite roles; equal ones are C47_equal_refuted."
  },
  {
   "property": "C48",
   "status": "partial",
   "theorems": [
    "C48_once",
    "C48_response",
    "C48_unknown_partial",
    "C48_quiet",
    "C48_safe_partial",
    "C48_completes_partial",
    "C48_nan_refuted",
    "C48_assert_refuted"
   ],
   "note": "Proved for every environment: each handler is called at most once, by the response or by close (C48_once, C48_response), nothing is called after close (C48_quiet). Refuted: a response numbered NaN resolves the oldest transaction (C48_nan_refuted); a createStream answer between 0 and 1 makes the assertion in basicClose fail (C48_assert_refuted). Without those, unknown responses are ignored, no assertion fails and closing completes (the _partial theorems)."
  },
  {
   "property": "C49",
   "status": "proved",
   "theorems": [
    "C49_runs",
    "C49_reassembled",
    "C49_order",
    "C49_complete"
   ],
   "note": "From when the connection is open (handshake left out). Abandoned messages, control messages, chunk size changes, simple mode, any clock values. Flow control and receipts are left out: writing and abandoning may happen at any time. C49_complete: with nothing abandoned everything written is completed after enough write opportunities."
  },
  {
   "property": "C50",
   "status": "proved",
   "theorems": [
    "C50_exact",
    "C50_valid"
   ],
   "note": ""
  },
  {
   "property": "C51",
   "status": "proved",
   "theorems": [
    "C51_advertised_window",
    "C51_huge_capacity_refuted"
   ],
   "note": "C51_advertised_window for capacities up to SIZE_MAX-1023; C51_huge_capacity_refuted shows the rounding wraps above that."
  },
  {
   "property": "C52",
   "status": "proved",
   "theorems": [
    "C52_send_order"
   ],
   "note": ""
  },
  {
   "property": "C53",
   "status": "proved",
   "theorems": [
    "C53_roundtrip",
    "C53_safe",
    "C53_unknown_ignored",
    "C53_required"
   ],
   "note": ""
  },
  {
   "property": "C54",
   "status": "proved",
   "theorems": [
    "C54_defined",
    "C54_init_special",
    "C54_eos"
   ],
   "note": ""
  },
  {
   "property": "C55",
   "status": "proved",
   "theorems": [
    "C55_base"
   ],
   "note": "Differences of times are exact here."
  },
  {
   "property": "C56",
   "status": "proved",
   "theorems": [
    "C56_safe",
    "C56_pieces"
   ],
   "note": "The user's onmessage does nothing to the connection; acknowledgements the receiver sends and setPaused are left out."
  },
  {
   "property": "C57",
   "status": "proved",
   "theorems": [
    "C57_told_last",
    "C57_told_means",
    "C57_told_everything",
    "C57_closed_told",
    "C57_stall_refuted"
   ],
   "note": "C57_stall_refuted shows that reliability is needed for the last part: after the trimming described in finding 46 the sender is done and the receiver is never told."
  },
  {
   "property": "C58",
   "status": "proved",
   "theorems": [
    "C58_can_finish",
    "C58_can_finish_room",
    "C58_margin_refuted"
   ],
   "note": "Possibility of progress from every reachable state (no deadlock), not a statement about fair schedulers; congestion control and timers' times are not part of this model. C58_margin_refuted shows that some limit on the front margin is needed."
  },
  {
   "property": "C59",
   "status": "proved",
   "theorems": [
    "C59_defined",
    "C59_moves",
    "C59_reached",
    "C59_once",
    "C59_checks",
    "C59_rate",
    "C59_follows",
    "C59_other_session_refuted"
   ],
   "note": "Forgery is excluded by an explicit hypothesis about the one packet (unforged), not by an axiom about the hash. C59_other_session_refuted: the check names no session, so a session may move by a check that another session of the instance sent."
  },
  {
   "property": "C60",
   "status": "partial",
   "theorems": [
    "C60_sound",
    "C60_comes",
    "C60_kept",
    "C60_replaced",
    "C60_complete_refuted"
   ],
   "note": "Proved: what is found is right, who comes is found, who is found stays found until another session comes to the same address, overriding replaces. Refuted (C60_complete_refuted): when a session moves to an address where another is open and then moves on, the other one is no longer found."
  },
  {
   "property": "C61",
   "status": "proved",
   "theorems": [
    "C61_ihello_exact",
    "C61_fihello_exact",
    "C61_rhello_exact",
    "C61_cookie_change_exact",
    "C61_redirect_exact",
    "C61_iikeying_exact",
    "C61_rikeying_exact",
    "C61_read_safe",
    "C61_ihello_made",
    "C61_rhello_made",
    "C61_redirect_made",
    "C61_cookie_change_made",
    "C61_iikeying_made",
    "C61_rikeying_made",
    "C61_iikeying_agrees",
    "C61_rikeying_agrees",
    "C61_ii_text_once",
    "C61_ri_text_once",
    "C61_packet",
    "C61_ihello_sent",
    "C61_ihello_sent_refuted"
   ],
   "note": "Exact iff for every parser, definedness, builders, agreement of signed and checked texts, uniqueness of readings, packets. C61_ihello_sent_refuted records that MAX_OPEN_EPD_LENGTH (used nowhere) is one too large for a hello to go out with the default key's margin."
  },
  {
   "property": "C62",
   "status": "partial",
   "theorems": [
    "C62_defined",
    "C62_initiator_partial",
    "C62_responder",
    "C62_responder_address",
    "C62_signed",
    "C62_completes",
    "C62_own_component_refuted",
    "C62_key_settled_refuted"
   ],
   "note": "Proved: definedness, certificate, what was signed on both sides, the forms of signed texts, completion of an undisturbed handshake. Missing from C62_initiator_partial: that the signed text had the initiator's own component; refuted (C62_own_component_refuted), an RIKeying that comes while the component is being made is checked against none. C62_key_settled_refuted: the key of an open session may be combined again."
  },
  {
   "property": "C63",
   "status": "proved",
   "theorems": [
    "C63_busy",
    "C63_retransmit",
    "C63_candidates",
    "C63_one_opening",
    "C63_one_keying",
    "C63_forward",
    "C63_shutdown"
   ],
   "note": "C63_one_keying assumes that a certificate is selected by its own canonical endpoint."
  },
  {
   "property": "C64",
   "status": "partial",
   "theorems": [
    "C64_initiator_agrees_partial",
    "C64_responder_agrees",
    "C64_identity_refuted"
   ],
   "note": "Proved: session IDs and components agree (with the alternative left open by signed texts that do not say which chunk they are of). Missing: that the responder's session is with this initiator; refuted (C64_identity_refuted), the responder's text does not name the initiator, so one that repeats another's component is confused with it."
  },
  {
   "property": "C65",
   "status": "proved",
   "theorems": [
    "C65_said",
    "C65_answers",
    "C65_packet",
    "C65_cookie",
    "C65_state"
   ],
   "note": "The reasons for a change of state (why) and what may be said (said, answer) are inductive specifications over the wire grammar."
  },
  {
   "property": "C66",
   "status": "partial",
   "theorems": [
    "C66_owed",
    "C66_alarm",
    "C66_two",
    "C66_served",
    "C66_fits",
    "C66_stranded_refuted"
   ],
   "note": "Proved when callbacks made while a packet is being assembled do not call the library. Missing: without this; refuted (C66_stranded_refuted): an acknowledgement asked for in such a callback is never sent, nor any other of the session, however much data arrives, until something else is scheduled."
  },
  {
   "property": "C67",
   "status": "partial",
   "theorems": [
    "C67_ready",
    "C67_timeout",
    "C67_burst",
    "C67_items",
    "C67_no_ub",
    "C67_set_priority",
    "C67_set_priority_refuted"
   ],
   "note": "Proved when callbacks made while a packet is being assembled do not call the library. Missing: that no session is used that is not there; refuted for setPriority on a flow with queued messages that is not bound (C67_set_priority_refuted), proved without such calls."
  },
  {
   "property": "C68",
   "status": "partial",
   "theorems": [
    "C68_defined",
    "C68_view_partial",
    "C68_view_early_refuted",
    "C68_session",
    "C68_lifecycle",
    "C68_closed",
    "C68_paused",
    "C68_return",
    "C68_reflexive"
   ],
   "note": "Proved for a server that accepts one of the client's keys and contradicts none, and addresses with a family. Missing: agreement when the callback for CONNECTED makes calls that send and the server has passwords; refuted (C68_view_early_refuted): these go out before the authentication and the server closes the connection."
  },
  {
   "property": "C69",
   "status": "partial",
   "theorems": [
    "C69_defined",
    "C69_registered",
    "C69_trust",
    "C69_redirect",
    "C69_fair",
    "C69_fingerprint_partial",
    "C69_fingerprint_refuted"
   ],
   "note": "Proved but for finding a client by fingerprint, which holds if no two connections ever had the same one (C69_fingerprint_partial) and is refuted otherwise (C69_fingerprint_refuted): closing an old connection removes the entry of a newer one."
  },
  {
   "property": "C70",
   "status": "partial",
   "theorems": [
    "C70_dead_only",
    "C70_dead_unanswered",
    "C70_detected_partial",
    "C70_detected_refuted",
    "C70_keepalive_only"
   ],
   "note": "Safety and keepalive spacing in full. Detection (C70_detected_partial) needs a session that at the last sign of life has its keepalive timer set or a flow whose window is not zero; without that it is refuted (C70_detected_refuted): with the window closed and data in flight a timeout leaves neither alarm set, and a peer gone then is never noticed."
  },
  {
   "property": "C71",
   "status": "proved",
   "theorems": [
    "C71_idle_only",
    "C71_idle_closes"
   ],
   "note": "Only then (C71_idle_only) and in time (C71_idle_closes)."
  },
  {
   "property": "C72",
   "status": "proved",
   "theorems": [
    "C72_defined",
    "C72_update",
    "C72_falls",
    "C72_bound",
    "C72_regular"
   ],
   "note": "In rational arithmetic; the code has doubles. The regular source is one whose period divides the window."
  },
  {
   "property": "C73",
   "status": "proved",
   "theorems": [
    "C73_actions",
    "C73_order",
    "C73_complete",
    "C73_tasks",
    "C73_stop"
   ],
   "note": "The kernel is assumed to report every descriptor at most once per poll. Timers due together with one that stops the loop still run (TimerList does not look at the stop); C73_stop says so by leaving them out."
  },
  {
   "property": "C74",
   "status": "partial",
   "theorems": [
    "C74_watched_only",
    "C74_watched_all_partial",
    "C74_watched_all_refuted",
    "C74_select_partial",
    "C74_select_refuted"
   ],
   "note": "That everything watched is registered holds without conditions. That everything registered is watched, and that select does not fail, holds for applications that register open descriptors and unregister before closing (C74_watched_all_partial, C74_select_partial); for others both are refuted. A file shared by two descriptors (dup, fork) is not modelled."
  },
  {
   "property": "C75",
   "status": "proved",
   "theorems": [
    "C75_parts",
    "C75_exact",
    "C75_derived",
    "C75_defined",
    "C75_scheme_refuted",
    "C75_newline_refuted"
   ],
   "note": "For texts without CR and LF, which no URI has; what happens with them is C75_newline_refuted. The scheme's tolower is undefined for chars below -1 (C75_scheme_refuted). That std::regex needs stack in proportion to the text is not modelled."
  },
  {
   "property": "C76",
   "status": "partial",
   "theorems": [
    "C76_target",
    "C76_target_unique",
    "C76_is_ref",
    "C76_reparse_partial",
    "C76_reparse_refuted"
   ],
   "note": "C76_target is without conditions. That the result is the target again is refuted where the target has no authority and a path beginning with // (C76_reparse_refuted); C76_reparse_partial excludes that."
  },
  {
   "property": "C77",
   "status": "partial",
   "theorems": [
    "C77_public_partial",
    "C77_public_refuted"
   ],
   "note": "Refuted for an authority with two @ (C77_public_refuted); C77_public_partial is for host parts without @."
  },
  {
   "property": "C78",
   "status": "proved",
   "theorems": [
    "C78_json",
    "C78_only",
    "C78_string",
    "C78_base10"
   ],
   "note": "The text of a floating point number is a parameter, assumed to be a JSON number or null. Bytes from 0x80 are copied, so an AMF string that is not UTF-8 gives JSON that is not UTF-8 (finding 73)."
  },
  {
   "property": "C79",
   "status": "partial",
   "theorems": [
    "C79_frame",
    "C79_part",
    "C79_exact",
    "C79_write",
    "C79_chunks_partial",
    "C79_chunks_refuted"
   ],
   "note": "Chunking is refuted for an application that calls shutdown in a callback (C79_chunks_refuted); C79_chunks_partial is for all others. Reading and writing of frames is proved in full."
  },
  {
   "property": "C80",
   "status": "proved",
   "theorems": [
    "C80_frames",
    "C80_messages",
    "C80_complete",
    "C80_pongs"
   ],
   "note": "[ready] is the state after the opening handshake; the effect of frames is linked to the effect of bytes by C80_frames."
  },
  {
   "property": "C81",
   "status": "partial",
   "theorems": [
    "C81_end_partial",
    "C81_unmasked_refuted",
    "C81_after_close_refuted",
    "C81_send_after_close_refuted",
    "C81_control_refuted",
    "C81_reserved_refuted"
   ],
   "note": "C81_end_partial proves that the end is once and final; that all RFC 6455 violations end the connection is refuted (unmasked frames, data after Close, long or fragmented control frames, reserved bits and opcodes)."
  },
  {
   "property": "C82",
   "status": "partial",
   "theorems": [
    "C82_base64",
    "C82_open",
    "C82_refuse",
    "C82_malformed",
    "C82_rfc_partial",
    "C82_lax_refuted",
    "C82_upgrade_refuted",
    "C82_byte_refuted"
   ],
   "note": "C82_open and C82_refuse decide exactly which well-formed requests open the stream; that this is what RFC 6455 4.2.1 says is refuted both ways (C82_lax_refuted, C82_upgrade_refuted). Requests are ASCII (C82_byte_refuted) and under 2^64-1 bytes."
  },
  {
   "property": "C83",
   "status": "partial",
   "theorems": [
    "C83_command",
    "C83_stream_command",
    "C83_data",
    "C83_media",
    "C83_defined_partial",
    "C83_data_ex_refuted",
    "C83_keepalive_partial",
    "C83_keepalive_refuted",
    "C83_commands",
    "C83_deleted",
    "C83_wire_partial",
    "C83_timestamp_refuted",
    "C83_order_refuted"
   ],
   "note": "Refuted: an empty TCMSG_DATA_EX is read out of bounds (C83_data_ex_refuted), send drops its timestamp (C83_timestamp_refuted), data sent in onOpen overtakes queued commands (C83_order_refuted), the keepalive period for other sessions is the wrong one (C83_keepalive_refuted)."
  },
  {
   "property": "C84",
   "status": "partial",
   "theorems": [
    "C84_messages",
    "C84_parse_total",
    "C84_order",
    "C84_all",
    "C84_complete",
    "C84_no_error",
    "C84_window",
    "C84_account",
    "C84_unblocked_partial",
    "C84_capacity_refuted",
    "C84_buffer_refuted",
    "C84_numbers_refuted"
   ],
   "note": "C84_unblocked_partial needs a capacity below 2^63: with SIZE_MAX the sender's limit wraps and the flow stops (C84_capacity_refuted). Also refuted: the capacity bounds what is buffered (C84_buffer_refuted); message numbers stay distinct whatever a peer abandons (C84_numbers_refuted)."
  },
  {
   "property": "C85",
   "status": "partial",
   "theorems": [
    "C85_own_partial",
    "C85_own_refuted",
    "C85_order",
    "C85_all",
    "C85_whole_refuted",
    "C85_send",
    "C85_close",
    "C85_reopen_refuted",
    "C85_tasks",
    "C85_writable",
    "C85_notify_refuted"
   ],
   "note": "C85_own_partial excludes a packet's callback that closes the adapter while descriptors are opened: then the reading loop goes on with a reused descriptor (C85_own_refuted). Also refuted: datagrams over 8192 bytes arrive whole (C85_whole_refuted); an interface added after close works (C85_reopen_refuted); a notification asked for inside onwritable stands (C85_notify_refuted)."
  },
  {
   "property": "C86",
   "status": "partial",
   "theorems": [
    "C86_bytes",
    "C86_history",
    "C86_socket_partial",
    "C86_socket_refuted",
    "C86_flush_partial",
    "C86_flush_refuted",
    "C86_attach_refuted",
    "C86_last_refuted",
    "C86_receive",
    "C86_again_refuted",
    "C86_end_partial",
    "C86_end_refuted",
    "C86_late_refuted",
    "C86_registered",
    "C86_error",
    "C86_answers",
    "C86_tasks"
   ],
   "note": "C86_flush_partial needs one socket, no detaching and bytes written only while registered: otherwise bytes stay unsent (C86_flush_refuted, C86_attach_refuted). C86_socket_partial needs one socket (C86_socket_refuted). C86_end_partial needs sockets before onClientClosed and a registration for reading (C86_end_refuted, C86_late_refuted). Also refuted: bytes taken before onClientClosed are sent whatever the peer sends (C86_last_refuted); a callback set inside the old one stands (C86_again_refuted)."
  },
  {
   "property": "C87",
   "status": "partial",
   "theorems": [
    "C87_wait",
    "C87_spin_refuted",
    "C87_on_time",
    "C87_all_fire",
    "C87_stale_refuted",
    "C87_stops_partial",
    "C87_clear_refuted",
    "C87_negative_refuted"
   ],
   "note": "C87_on_time needs the time of the callbacks in its bound: C87_stale_refuted shows a timer fire late although the loop idles. C87_stops_partial needs that clear() is not called (C87_clear_refuted). minSleep must not be negative (C87_negative_refuted); select can spin just before a timer (C87_spin_refuted)."
  },
  {
   "property": "C88",
   "status": "proved",
   "theorems": [
    "C88_hello",
    "C88_key",
    "C88_count",
    "C88_close",
    "C88_history",
    "C88_ends",
    "C88_gap_refuted",
    "C88_redirect",
    "C88_cancelled"
   ],
   "note": "The pace is counted from the first transmission; that each gap is at least a second is false after a late timer (C88_gap_refuted). C88_count and C88_ends take how late timers are as a parameter L."
  },
  {
   "property": "C89",
   "status": "partial",
   "theorems": [
    "C89_agree",
    "C89_groups",
    "C89_public",
    "C89_validate",
    "C89_zeros_partial",
    "C89_zeros_refuted",
    "C89_padding",
    "C89_cbc",
    "C89_cipher",
    "C89_dh",
    "C89_hmac"
   ],
   "note": "That a public key must have 16 zeros after its first one is false (C89_zeros_refuted); C89_validate states exactly what is accepted, C89_zeros_partial that 9 are needed and 23 enough. AES of one block and HMAC-SHA256 are parameters: any block cipher, any function."
  }
 ]
}