# Design

Formal model of zenomt/rtmfp-cpp (pinned commit, source in /repo) in Coq 8.16.1, standard library only.

## Method

* Each C++ function in scope is transcribed to a total Gallina function. The definition carries a comment with the file and
  lines it models and any simplification.
* Machine words and bytes are `Z` with explicit range predicates. Where C++ arithmetic can wrap and it matters, the model writes
  the `mod 2^n`. An operation answers `Ok`, `Rej` (a normal "false", or a caught or thrown exception as the file says) or `UB`
  (undefined behaviour, an uncaught exception, a failed assertion; also exhausted fuel, which theorems exclude).
* Byte buffers are lists. A pointer into a buffer is the rest of the list, its end is the limit.
* User callbacks are recorded as trace events. Where reentrancy matters, what they do is an arbitrary script or function.
* Hash functions, Diffie-Hellman, HMAC and block ciphers are arguments (section variables). Nothing is an axiom.
* A statement that is false of the faithful model is kept as a `*_refuted` theorem with a witness, see Findings.
* For a component `X`: `X.v` is the model, `XSpec.v` an independent specification, `XProofs.v` (and more files) the lemmas,
  `PropX.v` the property theorems only, each with `Print Assumptions` under it and a concrete case beside it.
* The theorems are tested against wrong programs: realistic bugs are put in a copy of the model and the build must fail
  (`seeded/LOG.jsonl`). Often the first thing to fail is a lemma a theorem rests on (`failed`); the theorem is then not built (`theorems_not_built`;
  entries without this field did not record it), which does not by itself show that no other proof of it exists.

## Trusted base

* Coq's kernel (8.16.1).
* `Print Assumptions` answers "Closed under the global context" for every theorem in the table below: no axiom, not even one of
  the standard library, is used. `coqchk` on all loaded libraries lists seven constants `Coq.ssr.ssrunder.Under_rel.*` (opaque
  module members of the standard library's ssreflect plugin, loaded through `Zify`); no theorem depends on them.
* The transcription from C++ to Gallina, by reading. No code is extracted, built or run.
* The C++ memory model, compiler and standard library, the operating system.
* The simplifications listed per component below.

## Properties and theorems

A theorem named `_refuted` shows where the property as first stated, or without a condition, fails; `_partial` proves part of it.

| id | property | status | file | theorems |
|----|----------|--------|------|----------|
| C01 | VLU integers survive the wire | proved | PropVLU.v | C01_vlu_roundtrip, C01_vlu_minimal |
| C02 | VLU::parse is bounded and saturating on hostile input | proved | PropVLU.v | C02_vlu_parse_bounded |
| C03 | Option lists round-trip and end markers are unambiguous | proved | PropVLU.v | C03_options_roundtrip, C03_option_parse_sound, C03_option_parse_defined |
| C04 | PacketAssembler never writes outside its buffer and failed operations change nothing that will be sent | proved | PropPacket.v | C04_assembler_refines, C04_assembler_refines_plain |
| C05 | A packet built by PacketAssembler is parsed by the receiver into the same chunks | proved | PropPacket.v | C05_assembled_packet_reparses |
| C06 | Packet parser never reads beyond the datagram | proved | PropPacket.v | C06_parse_defined, C06_parse_inside |
| C07 | Session-ID scrambling is inverted by the receiver | proved | PropPacket.v | C07_session_id_roundtrip |
| C08 | IndexSet behaves as a mathematical set of integers | proved | PropIndexSet.v | C08_indexset_is_set, C08_indexset_canonical, C08_indexset_extremes, C08_indexset_size_iteration, C08_indices_do_refuted |
| C09 | List names are stable handles on an ordered sequence | proved | PropLinkedList.v | C09_list_refines, C09_names_stable |
| C10 | SumList's sum is the total size of its current members | proved | PropLinkedList.v | C10_sum_is_total, C10_sum_unchecked_ops_refuted |
| C11 | Written messages are fragmented losslessly and within limits | proved | PropSendFlow.v | C11_fragments, C11_write_goes |
| C12 | A receiving flow delivers each message exactly once, in order, whatever the network does | proved | PropRecvFlow.v | C12_in_order, C12_exactly_once |
| C13 | Network-order delivery is exactly-once | proved | PropRecvFlow.v | C13_at_most_once, C13_exactly_once |
| C14 | A malformed peer cannot crash a receiving flow | partial | PropRecvFlow.v | C14_any_peer_partial, C14_hold_no_exception, C14_sequence_order_refuted, C14_network_order_refuted |
| C15 | Acknowledgements are truthful | proved | PropAck.v | C15_acks_truthful, C15_arbitrary_bytes |
| C16 | The cumulative ack and forward sequence number never move backwards | proved | PropRecvFlow.v | C16_cumulative_ack, C16_monotone |
| C17 | Sender accounting of outstanding bytes is exact | partial | PropSendFlow.v | C17_flow_accounts, C17_outstanding_exact, C17_session_accounts, C17_never_fails, C17_after_close_refuted |
| C18 | End-to-end reliable in-order delivery | proved | PropEndToEnd.v | C18_safe, C18_prefix, C18_complete |
| C19 | Abandoned messages never block or corrupt later ones | proved | PropEndToEnd.v | C19_whole_in_order, C19_forward_truthful, C19_stall_refuted |
| C20 | A write receipt finishes exactly once | proved | PropWriteReceipt.v | C20_at_most_once, C20_exactly_once, C20_final, C20_late_callback_refuted |
| C21 | Chained receipts are abandoned transitively | partial | PropWriteReceipt.v | C21_transitive_partial, C21_only_earlier, C21_delivered_between_refuted, C21_expire |
| C22 | The reorder buffer releases each message once and flags late ones truthfully | proved | PropReorder.v | C22_defined, C22_at_most_once, C22_late, C22_flush, C22_holds_back, C22_released, C22_uninitialised_refuted, C22_close_in_callback_refuted, C22_assertion_refuted |
| C23 | Timers fire in time order, never early and never after cancel | proved | PropTimer.v | C23_safe, C23_punctual, C23_in_order, C23_none_left, C23_none_forgotten, C23_ends, C23_sleep, C23_wake, C23_self_add_refuted |
| C24 | A recurring timer keeps its phase and never schedules itself in the past | partial | PropTimer.v | C24_next, C24_phase, C24_after_now_refuted |
| C25 | Work handed to a Performer is never lost and runs in order | proved | PropPerformer.v | C25_order, C25_wakeup, C25_read, C25_ends, C25_all_done, C25_close_refuted |
| C26 | The flow-sync barrier releases exactly when complete | proved | PropFlowSync.v | C26_release, C26_count, C26_held, C26_until, C26_isolated, C26_destroy, C26_undisciplined_refuted |
| C27 | Sync messages round-trip | partial | PropFlowSync.v | C27_wire, C27_roundtrip, C27_roundtrip_refuted, C27_exact, C27_fresh |
| C28 | The congestion window stays within bounds | proved | PropCongestion.v | C28_bounds, C28_floor, C28_cut, C28_recovery, C28_growth, C28_total, C28_avoidance, C28_timeout, C28_ecn |
| C29 | Retransmission timeout back-off is bounded and recovers | partial | PropRto.v | C29_floor, C29_max, C29_max_refuted, C29_grow, C29_measured, C29_alarm |
| C30 | Session states only move forward and a closed session is inert | partial | PropSession.v | C30_states, C30_safe, C30_told, C30_told_once, C30_quiet_partial, C30_held_refuted, C30_closes_partial, C30_hang_refuted, C30_orphan_refuted |
| C31 | Handshake cookies are accepted only for the right address and only while fresh | proved | PropCookie.v | C31_fresh, C31_stale, C31_mismatch, C31_unforgeable, C31_defined |
| C32 | Both ends of a Flash-crypto handshake agree | proved | PropFlashKey.v | C32_agree, C32_completes, C32_no_group, C32_own_certificate, C32_any_responder, C32_any_initiator, C32_unwilling, C32_retry_refuted, C32_twice_refuted |
| C33 | Encrypted packets decrypt to what was sent | proved | PropFlashKey.v | C33_decrypt, C33_unique, C33_encrypt, C33_channel, C33_session, C33_plain, C33_plain_handshake, C33_null_refuted |
| C34 | Replayed packets are rejected | proved | PropFlashKey.v | C34_history, C34_once, C34_verdicts |
| C35 | Transmission opportunities follow priority and are shared fairly | proved | PropInterface.v | C35_priority, C35_round_robin, C35_waiting, C35_watched, C35_ends, C35_reentrant_refuted |
| C36 | User-data chunks are decoded as they were encoded | proved | PropUserData.v | C36_userdata_roundtrip, C36_arbitrary_bytes, C36_arbitrary_packets |
| C37 | AMF0 values round-trip | proved | PropAMF.v | C37_roundtrip, C37_bytes, C37_list, C37_duplicate, C37_injective, C37_deep_refuted |
| C38 | AMF0 decoding is safe on hostile input | proved | PropAMF.v | C38_decode, C38_stable, C38_all |
| C39 | Addresses round-trip and are consistently ordered | proved | PropAddress.v | C39_roundtrip, C39_wire, C39_decode, C39_equal, C39_order, C39_map, C39_map_down |
| C40 | Hex round-trips and rejects malformed text | proved | PropHex.v | C40_roundtrip, C40_exact, C40_byte |
| C41 | TC metadata and message headers round-trip | proved | PropTC.v | C41_metadata, C41_metadata_exact, C41_message, C41_message_exact |
| C42 | Message timestamps compare consistently across wrap-around | proved | PropTC.v | C42_order, C42_trichotomy, C42_half_range_refuted |
| C43 | Media message headers round-trip | proved | PropMedia.v | C43_roundtrip, C43_safe |
| C44 | The checksums detect the errors they promise to | proved | PropChecksums.v | C44_crc_be_remainder, C44_crc_le_remainder, C44_crc_concat, C44_crc_burst, C44_cksum_value, C44_cksum_verify, C44_cksum_detects, C44_cksum_odd_refuted, C44_cksum_long_refuted |
| C45 | URI path normalisation and splitting | proved | PropURI.v | C45_dots, C45_dot_free, C45_dots_same, C45_split_join, C45_split_fields, C45_split, C45_decode, C45_decode_hex, C45_decode_defined, C45_decode_exact, C45_decode_safe |
| C46 | Endpoint discriminators select the intended endpoint | proved | PropFlashCert.v | C46_adapter, C46_certificate, C46_accepted, C46_agree, C46_canonical, C46_make, C46_plain |
| C47 | Glare is resolved to exactly one session | proved | PropFlashCert.v | C47_flash, C47_plain, C47_equal_refuted |
| C48 | Remote transactions complete exactly once and closing is final | partial | PropTCConn.v | C48_once, C48_response, C48_unknown_partial, C48_quiet, C48_safe_partial, C48_completes_partial, C48_nan_refuted, C48_assert_refuted |
| C49 | RTMP chunk streams are reassembled as sent | proved | PropRTMP.v | C49_runs, C49_reassembled, C49_order, C49_complete |
| C50 | Reference-counted handles neither leak nor double-release | proved | PropRetainer.v | C50_exact, C50_valid |
| C51 | The advertised receive window is the free buffer space | proved | PropAck.v | C51_advertised_window, C51_huge_capacity_refuted |
| C52 | Resuming the send-queue scan skips nothing | proved | PropSendFlow.v | C52_send_order |
| C53 | Media flow metadata round-trips | proved | PropMedia.v | C53_roundtrip, C53_safe, C53_unknown_ignored, C53_required |
| C54 | Audio and video payloads are classified safely and consistently | proved | PropTC.v | C54_defined, C54_init_special, C54_eos |
| C55 | Base round trip time is a windowed minimum | proved | PropRto.v | C55_base |
| C56 | RTMP chunk input is safe and independent of how it is cut | proved | PropRTMP.v | C56_safe, C56_pieces |
| C57 | The end of a flow reaches the receiver, once and last | proved | PropEndOfFlow.v | C57_told_last, C57_told_means, C57_told_everything, C57_closed_told, C57_stall_refuted |
| C58 | A bound flow can always finish: no reachable state is stuck | proved | PropProgress.v | C58_can_finish, C58_can_finish_room, C58_margin_refuted |
| C59 | A session follows its far end to another address only on fresh proof that it is there | proved | PropMobility.v | C59_defined, C59_moves, C59_reached, C59_once, C59_checks, C59_rate, C59_follows, C59_other_session_refuted |
| C60 | The instance finds its open sessions by address and endpoint | partial | PropMobility.v | C60_sound, C60_comes, C60_kept, C60_replaced, C60_complete_refuted |
| C61 | The handshake's chunks are read and written exactly as the protocol says, and what is signed is what is checked | proved | PropStartup.v | C61_ihello_exact, C61_fihello_exact, C61_rhello_exact, C61_cookie_change_exact, C61_redirect_exact, C61_iikeying_exact, C61_rikeying_exact, C61_read_safe, C61_ihello_made, C61_rhello_made, C61_redirect_made, C61_cookie_change_made, C61_iikeying_made, C61_rikeying_made, C61_iikeying_agrees, C61_rikeying_agrees, C61_ii_text_once, C61_ri_text_once, C61_packet, C61_ihello_sent, C61_ihello_sent_refuted |
| C62 | A session opens only with the far end it was asked for, and only after that end signed for it | partial | PropHandshake.v | C62_defined, C62_initiator_partial, C62_responder, C62_responder_address, C62_signed, C62_completes, C62_own_component_refuted, C62_key_settled_refuted |
| C63 | What the handshake keeps is bounded and unique, and a session's life goes one way | proved | PropHandshake.v | C63_busy, C63_retransmit, C63_candidates, C63_one_opening, C63_one_keying, C63_forward, C63_shutdown |
| C64 | The two ends of an open session agree on whom they talk to, the session IDs and the key components | partial | PropHandshake.v | C64_initiator_agrees_partial, C64_responder_agrees, C64_identity_refuted |
| C65 | The handshake speaks only when it should, and a packet by itself neither makes nor ends a session | proved | PropHandshakeOut.v | C65_said, C65_answers, C65_packet, C65_cookie, C65_state |
| C66 | Acknowledgements are not forgotten | partial | PropSched.v | C66_owed, C66_alarm, C66_two, C66_served, C66_fits, C66_stranded_refuted |
| C67 | Data that may be sent gets scheduled | partial | PropSched.v | C67_ready, C67_timeout, C67_burst, C67_items, C67_no_ub, C67_set_priority, C67_set_priority_refuted |
| C68 | A redirector client's registration | partial | PropRedir.v | C68_defined, C68_view_partial, C68_view_early_refuted, C68_session, C68_lifecycle, C68_closed, C68_paused, C68_return, C68_reflexive |
| C69 | The redirector's tables and choices | partial | PropRedir.v | C69_defined, C69_registered, C69_trust, C69_redirect, C69_fair, C69_fingerprint_partial, C69_fingerprint_refuted |
| C70 | A dead peer is noticed, a live one is not dropped | partial | PropAlive.v | C70_dead_only, C70_dead_unanswered, C70_detected_partial, C70_detected_refuted, C70_keepalive_only |
| C71 | Idle sessions are closed, others are not | proved | PropAlive.v | C71_idle_only, C71_idle_closes |
| C72 | The rate tracker measures what it is told | proved | PropRate.v | C72_defined, C72_update, C72_falls, C72_bound, C72_regular |
| C73 | The run loop runs what is registered and ready, and all of it | proved | PropLoop.v | C73_actions, C73_order, C73_complete, C73_tasks, C73_stop |
| C74 | What is registered is what the kernel watches | partial | PropLoop.v | C74_watched_only, C74_watched_all_partial, C74_watched_all_refuted, C74_select_partial, C74_select_refuted |
| C75 | A URI is cut into its parts the only way there is | proved | PropURIParse.v | C75_parts, C75_exact, C75_derived, C75_defined, C75_scheme_refuted, C75_newline_refuted |
| C76 | A relative reference resolves as RFC 3986 says | partial | PropURIParse.v | C76_target, C76_target_unique, C76_is_ref, C76_reparse_partial, C76_reparse_refuted |
| C77 | The public URI has no credentials | partial | PropURIParse.v | C77_public_partial, C77_public_refuted |
| C78 | The JSON text of an AMF value is that value | proved | PropJSON.v | C78_json, C78_only, C78_string, C78_base10 |
| C79 | The WebSocket server reads and writes RFC 6455 frames, however the bytes are cut | partial | PropWebSock.v | C79_frame, C79_part, C79_exact, C79_write, C79_chunks_partial, C79_chunks_refuted |
| C80 | Messages are delivered whole and in order, and pings answered | proved | PropWebSock.v | C80_frames, C80_messages, C80_complete, C80_pongs |
| C81 | The connection ends once and as RFC 6455 says | partial | PropWebSock.v | C81_end_partial, C81_unmasked_refuted, C81_after_close_refuted, C81_send_after_close_refuted, C81_control_refuted, C81_reserved_refuted |
| C82 | The WebSocket opening handshake is RFC 6455's | partial | PropWebSockHttp.v | C82_base64, C82_open, C82_refuse, C82_malformed, C82_rfc_partial, C82_lax_refuted, C82_upgrade_refuted, C82_byte_refuted |
| C83 | TC messages mean what their builders said, and a stream writes what it was asked to | partial | PropTCMsg.v | C83_command, C83_stream_command, C83_data, C83_media, C83_defined_partial, C83_data_ex_refuted, C83_keepalive_partial, C83_keepalive_refuted, C83_commands, C83_deleted, C83_wire_partial, C83_timestamp_refuted, C83_order_refuted |
| C84 | An RTWebSocket flow delivers what was written to it | partial | PropRTWS.v | C84_messages, C84_parse_total, C84_order, C84_all, C84_complete, C84_no_error, C84_window, C84_account, C84_unblocked_partial, C84_capacity_refuted, C84_buffer_refuted, C84_numbers_refuted |
| C85 | The POSIX adapter keeps interfaces, sockets and tasks apart | partial | PropPosix.v | C85_own_partial, C85_own_refuted, C85_order, C85_all, C85_whole_refuted, C85_send, C85_close, C85_reopen_refuted, C85_tasks, C85_writable, C85_notify_refuted |
| C86 | The stream adapter carries bytes in order and ends the connection properly | partial | PropPStream.v | C86_bytes, C86_history, C86_socket_partial, C86_socket_refuted, C86_flush_partial, C86_flush_refuted, C86_attach_refuted, C86_last_refuted, C86_receive, C86_again_refuted, C86_end_partial, C86_end_refuted, C86_late_refuted, C86_registered, C86_error, C86_answers, C86_tasks |
| C87 | Run loops sleep no longer than they may, and timers fire on time | partial | PropSleep.v | C87_wait, C87_spin_refuted, C87_on_time, C87_all_fire, C87_stale_refuted, C87_stops_partial, C87_clear_refuted, C87_negative_refuted |
| C88 | Handshake and closing packets are sent again at the intended pace, and end | proved | PropRtx.v | C88_hello, C88_key, C88_count, C88_close, C88_history, C88_ends, C88_gap_refuted, C88_redirect, C88_cancelled |
| C89 | The OpenSSL contexts agree on secrets, check public keys and compute CBC and HMAC | partial | PropOssl.v | C89_agree, C89_groups, C89_public, C89_validate, C89_zeros_partial, C89_zeros_refuted, C89_padding, C89_cbc, C89_cipher, C89_dh, C89_hmac |

## What is modelled, and how it is simplified

Everywhere: memory never runs out; pointers are never null unless said so; destructors run only as modelled.

| model | C++ code | simplified or left out |
|-------|----------|------------------------|
| VLU | VLU.cpp | a null limit is not passed (finding 5) |
| IndexSet | IndexSet.cpp | `remove(self)` left out (finding 4); the std::list of ranges is a list |
| Packet | PacketAssembler.cpp; ISession::onReceivePacket (Session.cpp 39-90); scrambling (Session.cpp 96-111, RTMFP.cpp 217-238) | the buffer's size is passed correctly; chunk handlers are recorded |
| LinkedList | List.hpp: List, SumList | names do not exceed `long`; no aliasing of a value argument with the list (finding 20) |
| RecvFlow, Ack | RecvFlow.cpp (data path, acks), the receiver of ack chunks | metadata, association, timers; the application's calls in callbacks are a script |
| WriteReceipt | WriteReceipt.cpp | times are whole ticks; callbacks are recorded, what they do comes after |
| UserData | SendFlow::assembleData's chunks, Session::onUserDataChunk | flows are found by number |
| SendFlow | SendFlow.cpp; Session.cpp: onTimeoutAlarm, onInterfaceWritable, onPacketAfterChunks, onAckChunk, onExceptionChunk, abortFlowsAndTimers | one session; whole ticks; callbacks do not re-enter; list names are chosen by the environment; sequence numbers do not run out |
| EndToEnd | the two ends joined by a set of packets from which any may arrive any number of times, in any order | one flow per data packet; encryption is the identity with 0xff padding added; dispatch to flows, creation, acceptance and the end of life of the receiving flow; no stale acks of a reused flow id; the sending session stays open |
| Hex, Checksums | Hex.cpp, Checksums.cpp | print and dump |
| TC | TCMessage.cpp | the command builders (AMF0 values in a row) |
| Media | Media.cpp: headers and metadata | conversion of ticks to Time |
| Reorder | ReorderBuffer.cpp | whole ticks; the callback may only close the buffer |
| Address | Address.cpp | flow label, scope, presentation strings, lookup |
| FlashCert | certificates and EPDs in FlashCryptoAdapter.cpp, PlainCryptoAdapter.cpp | SHA-256 is any function; DH contexts are arguments |
| FlashKey | session keys in FlashCryptoAdapter.cpp, PlainCryptoAdapter.cpp | AES, HMAC, DH are functions with the hypotheses cipher_ok, mac_ok, dh_ok where needed; failures to create contexts; erasing secrets |
| Cookie | RTMFP.cpp: makeCookie, checkCookie | microsecond ticks; the hash is any function, its collision freedom an explicit hypothesis |
| Retainer | Retainer.hpp, Object.cpp | destructors only destroy members; counts do not overflow; one thread |
| FlowSync | FlowSyncManager.cpp | flows are numbers; their delivery is only scheduled |
| URI | URIParse.cpp: removeDotSegments, split, percentDecode, safePercentDecode | signed chars, "C" locale |
| URIParse | URIParse.cpp: parse, transformRelativeReference, mergedRelativePath, lowercase | the four regular expressions as syntax trees, matched by backtracking in ECMAScript order; "C" locale; the stack std::regex uses |
| AMF | AMF.cpp: AMF0 encode and decode | doubles are bit patterns; repr |
| WebSock | test/SimpleWebSocket.cpp: SimpleWebSocket and its bases (streams, HTTP header block, frames, messages, closing), base64 | the raw output buffer and onWritable are left out, all callbacks are set at the start, SHA-1 is a parameter, the application is any function of the events so far |
| JSON | AMF.cpp: toJSON, the indentation, escapes and decimal digits | the text of a floating point number (ostream) is a parameter |
| Timer | Timer.cpp | whole ticks; one list; fireDueTimers is not nested; actions are functions of the state |
| Performer | Performer.cpp | atomic steps in any order, unlimited pipe; close on the run loop's thread; exceptions of tasks |
| Interface | Interface.cpp | queues are plain lists (C09); the sessions' answers are given |
| Congestion | Session.cpp: updateCWND and its callers | comparisons of times may come out any way; outstanding bytes at most 2^56 |
| Rto | Session.cpp: RTT measurement, timeouts, base RTT | times are rationals with an arbitrary rounding function; infinities, NaN; differences for the base RTT are exact |
| Session | Session.cpp: life cycle; RTMFP.cpp: openFlow, session hooks; the flows' callbacks | what packets contain is chosen by the environment (over-approximation); reentrant callbacks as a stack of frames |
| Mobility | Session.cpp: address mobility; RTMFP.cpp: tables of open sessions | the hash is any function with 32-byte results; packets are already decrypted; chunks that concern neither address nor state; closing is one step |
| Startup | RTMFP.cpp and Session.cpp: making, packing and reading the chunks of the startup handshake | a uint32_t copied as memory is little-endian; `sign` is any function; what is done with the chunks is not in this file |
| Handshake | RTMFP.cpp 82-160, 343-470, 508-715; Session.cpp 195-237, 412-443, 543-556, 740-788, 820-865, 1264-1388, 1644-1662: opening sessions as initiator and responder, state by state | each task given to perform() is one atomic step and tasks run in any order; isAuthentic and checkSignature call back at once; timers are events; session IDs are given; a key is the component it made and those it was combined with; flows and packets of open sessions are elsewhere |
| Sched | Session.cpp 132-192, 483-531, 891-968, 974-1073, 1221-1239, 1443-1557, 1723-1780, 2034-2068; SendFlow.cpp 206-328, 391-512, 545-698; RecvFlow.cpp 414-425; RTMFP.cpp 240-249: who is asked to send, and when | fragments are counted, m_outstandingFrags is flows and sizes; what fits, what is lost or acknowledged, the congestion window and when alarms fire are chosen by the environment; assembleData's callbacks are any list of calls |
| Redir | RedirectorClient.cpp, RedirectorClient.hpp: the client's settings, messages, life cycle | the flow is what the client sees of it (messages written, session settings); binding and becoming writable are one event; callbacks are lists of calls, they do not destroy the client; the HMAC is a parameter (32 bytes) |
| RedirSrv | test/redirector.cpp 80-476, class Client: messages, tables, doRedirect | activeClients is a sequence (C09), the shuffle any permutation, the return flow always opens, closed clients keep their number; not main, options, printing, EPD parsing (C44) |
| Alive | Session.cpp: setOpen, keepalive, timeout and idle alarms and what re-arms them | times are integers; measured times and backoff are chosen by the environment; of the flows only whether data is in flight, whether a window is open, and their number; sending is an event |
| Loop | RunLoop.cpp, SelectRunLoop.cpp, EPollRunLoop.cpp: registration, activation, doLater, stop, clear, cycles | the kernel's reports and the number of timers due are inputs; callbacks are the calls they make; epoll_ctl as a map keyed by descriptor that forgets closed ones; select fails if a registered descriptor is not open; no times, threads, EPOLLHUP, FD_SETSIZE; the order of descriptors within one condition is that of registration for select, that of the report for epoll |
| Rate | RateTracker.cpp | rational numbers instead of doubles; m_count does not wrap |
| TCMsg | TCMessage.cpp 11-58, TCConnection.cpp: onMessage, onCommandMessage, TCStream, deliverMessage, user control messages, stream flows | what onMessage calls is its result; the connection stays open, deleteStream's own command (on the control stream) and write deadlines are left out |
| Sleep | how long SelectRunLoop and EPollRunLoop sleep and when timers fire: SelectRunLoop.cpp 69-134, EPollRunLoop.cpp 120-186, RunLoop.cpp 28-102, TimerList | whole ticks, any number to 0.1 ns; timers fire once (recurring: C23); the kernel returns any time up to the time given and a fixed delay more; descriptors are only what their actions do (C73); threads |
| Rtx | the timers that send again and that end a session: Session.cpp 412-428, 484-488, 533-541, 558-585, 756-788, 817-843, as Timer.cpp 119-151 has them recur | whole ticks, any number to a microsecond; timers fire at any time from when they are due on; what is received is given as what it does to the state; packets are only their kinds; keepalive, idle and loss timers elsewhere or not at all |
| Ossl | the contexts of FlashCryptoAdapter_OpenSSL.cpp: Diffie-Hellman with its checks (30-125, 288-430), AES-CBC (240-285), HMAC (127-237), 442-448 | OpenSSL as documented and not failing; AES of a block and HMAC-SHA256 are arguments; lengths fit an int; erasing secrets; random numbers are a parameter |
| Posix | src/PosixPlatformAdapter.cpp, src/PerformerPosixPlatformAdapter.cpp: interfaces, packets, tasks | the run loop is its registrations and its queue of later tasks; the kernel is a table of descriptors with queues of datagrams, and gives a free descriptor; timers, socket options, addresses of packets and control messages are left out |
| PStream | test/PosixStreamPlatformAdapter.cpp | callbacks are known by whether they are set, what they do comes with the events; the run loop is its two registrations and its queue of later tasks; sendto and recvfrom answer anything, with an error on a closed or shut socket; socket options are left out |
| RTWS | test/RTWebSocket.cpp: SendFlow, RecvFlow, the reading of messages; RTWebSocket.hpp | one flow with its receiver over an open connection in order; round trip times, priorities, bytes in flight and isWritable are left out, so a flow may be asked to transmit, trim or acknowledge at any time; onMessage and onComplete are set on accept |
| TCConn | TCConnection.cpp, client end | transaction numbers are unbounded; whether writes succeed is chosen by the environment; messages may arrive any time; callbacks do not receive messages synchronously |
| RTMP | test/RTMP.cpp: chunk streams | handshake, flow control, receipts, pausing; abandonment at any time; the receiving user leaves the connection alone in onmessage |

Not modelled at all: OpenSSL itself, the test programs other than PosixStreamPlatformAdapter.cpp, RTMP.cpp, SimpleWebSocket.cpp, the flows of RTWebSocket.cpp and the class Client of redirector.cpp.

## Findings

Behaviour of the code that violates a property as stated, or that looks like a defect. Those with a theorem are proved of the model;
the others were found while reading the code for the model.

1. RecvFlow can be crashed (uncaught std::out_of_range) by a malformed peer in sequence and network order:
   C14_sequence_order_refuted, C14_network_order_refuted.
2. With a malformed sender fragments of different messages can be joined into one (BEGIN and END marks are linked by sequence
   number only).
3. ReorderBuffer: m_highestSeen is not initialised; closing in the callback uses an erased iterator; an assertion can fail: C22_uninitialised_refuted,
   C22_close_in_callback_refuted, C22_assertion_refuted.
4. IndexSet::indicesDo does not terminate when UINTMAX_MAX is in the set (C08_indices_do_refuted); `remove(self)` uses an
   invalidated iterator.
5. VLU::parseField with a null limit computes a pointer past the end of memory.
6. SendFlow::trimSendQueue and assembleData keep references into the queue across user callbacks.
7. WriteReceipt: a callback set late is told "not abandoned" (C20_late_callback_refuted); a delivered receipt in the middle cuts
   the chain (C21_delivered_between_refuted); useCountDown at 0 underflows.
8. in_cksum differs from RFC 1071 for odd lengths (C44_cksum_odd_refuted) and loses a carry beyond 131074 bytes
   (C44_cksum_long_refuted).
9. FlowSyncManager::parse sign-extends counts from 2^31 (C27_roundtrip_refuted); undisciplined use leaves flows held
   (C26_undisciplined_refuted).
10. SendFlow::ackRange: onFinished closing the session while more than one fragment is being acknowledged.
11. TCStream::send ignores its timestamp (TCConnection.cpp:423).
12. onSetKeepaliveUserCommand: peerPeriodMsec is taken from the server period (TCConnection.cpp:831).
13. TCStream::onDataMessage reads past the end of an empty TCMSG_DATA_EX message (TCConnection.cpp:532).
14. TCConnection: a peer that answers createStream with a number between 0 and 1 makes an assertion fail in close
    (C48_assert_refuted).
15. createStream before connect takes transaction ID 1.
16. timestamp_lt and timestamp_gt at exactly half the range: C42_half_range_refuted.
17. Glare between equal discriminators: C47_equal_refuted.
18. AMF0: values nested deeper than 32 encode but do not decode (C37_deep_refuted); strings from 2^32 bytes wrap their length; the
    encoding of an array with 2^32 members does not end.
19. A FlashCrypto certificate's fingerprint includes the marker option (C46_certificate).
20. List: `append(list.at(x))` aliases memory that is reallocated; `addAfter(value, bogus)` throws; `x.appendValuesFrom(x)` does
    not end; SumList's inherited operations bypass the sum (C10_sum_unchecked_ops_refuted).
21. Reparsing a padded packet needs less than 65538 bytes of padding (C05).
22. m_outstanding_bytes keeps its last value after the session closes: C17_after_close_refuted.
23. Rounding up the advertised window wraps for capacities near SIZE_MAX: C51_huge_capacity_refuted.
24. A maximal fragment only just fits an empty packet of 1200 bytes without a front margin; with one only if margin and the sizes of
    the numbers leave room (C58 and C58_margin_refuted).
25. Hex::decodeDigit passes negative chars to isspace.
26. Media::basicParseHeader: the sum of time stamp and offset may wrap.
27. Moving a Retainer into itself empties it.
28. URIParse::parse uses std::regex: '.' does not match a newline, and long input exhausts the stack.
29. Performer::close drops queued items: a waiting thread waits for ever (C25_close_refuted); perform racing with close writes to a
    closed descriptor.
30. Timer: addTimer on a timer from its own action (C23_self_add_refuted); the next due time may be now (C24_after_now_refuted);
    TimerList::clear leaves the timers pointing to the list.
31. Interface: a request made by a session that declines can be stranded (C35_reentrant_refuted).
32. FlashCryptoKey keeps what it negotiated with a component that it then rejects; anybody can send one, as signatures are not
    checked (FlashCryptoAdapter.cpp 1034-1038), and the two ends then disagree (C32_retry_refuted).
33. A component combined twice (a duplicated RIKeying) makes keys out of public bytes only (C32_twice_refuted).
34. A forged component with a bad HMAC length after completion turns HMACs on without a key; the next packet sent goes through a
    null pointer (C33_null_refuted).
35. The minimum-RTT probe can raise the congestion window.
36. The effective RTO can exceed the maximum: C29_max_refuted.
37. An onException that opens another flow to the same endpoint keeps the session closing for ever (C30_hang_refuted).
38. A flow opened by an onComplete while the session closes stays open and is never told (C30_orphan_refuted).
39. A complete receiving flow on hold delivers its messages after the session's end (C30_held_refuted).
40. SendFlow::onSessionWillOpen does not check the flow's endpoint discriminator (SendFlow.cpp 285-300, called from RTMFP.cpp
    451-454 for every opening flow): with two peers being opened at once a flow binds to the wrong one.
41. RecvFlow::close in onMessage destroys the std::function that is running.
42. A NaN transaction ID: C48_nan_refuted.
43. RTMFPTCConnection's reorder buffer: use after free if a late delivery closes the connection.
44. TCConnection: after 2^53 transactions m_nextTID no longer changes; connect() or write() before init() dereferences null.
45. A stale acknowledgement of an earlier flow with the same flow ID is applied to the new flow.
46. SendFlow::trimSendQueue removes an abandoned first fragment while a later one is in flight; if that one is acknowledged and nothing
    else is queued, the receiver is never told, and the arrived later messages stay undelivered until something new is written
    (C19_stall_refuted); if the flow was closed, the receiver is never told of its end (C57_stall_refuted).
47. The mobility check covers time, interface and address but no session: a check sent by one session of the instance moves any other
    session whose far end presents it from that place (C59_other_session_refuted).
48. When a session moves to an address where another session is open and then moves on, m_openSessionsByAddress has no entry for the
    other one although it is still open there (C60_complete_refuted): RIKeying is not retransmitted for it, and a new initiator at its
    address is accepted without the override check.
49. A session sends one mobility check per second whatever the source of the packet: copies of its packets replayed from other addresses
    use up the one check of each second, so a far end that really moved may wait for its own check without limit.
50. Nothing limits the length of the endpoint discriminator given to openFlow; MAX_OPEN_EPD_LENGTH (params.hpp 26) is used nowhere. From 4231
    bytes (which MAX_OPEN_EPD_LENGTH would allow) the IHello with the default key's front margin does not fit and is silently never sent
    (C61_ihello_sent_refuted); the flow waits until the session gives up.
51. An RIKeying is accepted in state KEYING_SENT, which is set before the initiator's own key component has been made (Session.cpp
    1290-1313): one that comes in between is checked against an empty component and opens the session (C62_own_component_refuted). The
    responder's signature then does not cover the initiator's component.
52. onRIKeyingChunk looks at the state when the chunk arrives and in the last task only (Session.cpp 1361-1388). Two RIKeyings checked at
    the same time are both combined with the key, the second when the session is already open (C62_key_settled_refuted); the session ID in
    use may be from one and the component from the other. FlashCryptoKey::initiatorCombineResponderKeyingComponent computes the keys anew
    on the second call, so a responder's retransmission may damage an open session.
53. The text a responder signs is its ID, its component and the initiator's component, and names neither the initiator nor the initiator's
    ID. An initiator that repeats another's component gets an RIKeying that the other accepts: the two ends do not agree on who the
    initiator is (C64_identity_refuted). Whether the keys then agree depends on the Diffie-Hellman secret, which is not modelled.
54. The texts signed in an IIKeying and in an RIKeying do not say which of the two they are; a text may be read as either (the alternatives
    in C64_initiator_agrees_partial and C64_responder_agrees).
55. FlashCryptoAdapter::sign answers the byte 'X' and FlashCryptoCert::checkSignature always passes, so with this adapter "signed" in C62
    says only that the text had that form, and the hypothesis of C64 does not hold; authentication rests on the Diffie-Hellman public key in
    the certificate.
56. SendFlow::setPriority calls scheduleForTransmission, which uses m_session without looking whether the flow has one (SendFlow.cpp
    206-213, 316-320). On a flow that is still opening and has messages queued, or that was closed before it got its session, this is a call
    through a null pointer (C67_set_priority_refuted). The same from onException when the session ended (the queue is cleared afterwards).
57. The lost wake-up of C35 strands acknowledgements: when a receipt's onFinished, called while a packet is assembled, makes a receiving
    flow ask for an acknowledgement, m_ack_now is set and the session queued at a priority already served; Interface::onWritable then
    stops watching. m_ack_now keeps ackNow from scheduling again, so the peer's data is not acknowledged until something else of this
    interface is scheduled (C66_stranded_refuted).
58. RedirectorClient::onConnected reports CONNECTED before it sends the authentication (RedirectorClient.cpp 349-362). Calls made in that
    callback that send (setActive, addAdditionalAddress, sendUserData, ...) go out first; a redirector with passwords takes the first
    message of an unauthenticated client that is not SIMPLE_AUTH as bad authentication and closes the connection (C68_view_early_refuted).
    The client then reconnects and the callback does the same again.
59. test/redirector.cpp: Client::close erases peers[m_fingerprint] also if the entry is another, newer connection's (146-170). The newer one is
    not entered again while it is active, since onSettings enters it only when it is not in activeClients (401-406). A client that
    reconnects before its old session has timed out is not found by fingerprint any more (C69_fingerprint_refuted).
60. RedirectorClient::getKeepalivePeriod is declared (RedirectorClient.hpp) but not defined: a program that uses it does not link.
61. RedirectorClient::addAdditionalAddress with an Address that has no family encodes to an empty ADD_ADDRESS option, and the redirector
    closes a connection whose SETTINGS has one; C68 therefore asks for addresses with a family.
62. test/redirector.cpp 213-246: an address that is a duplicate does not count for the decision to forward, so a client all of whose
    addresses of the initiator's family are in the Redirect already (say two processes behind the same address, or a static
    address) is not forwarded the initiator hello unless that is forced (C69_redirect_ex).
63. Session::onTimeoutAlarm (Session.cpp 1010-1064) starts the keepalive timer again only if nothing is in flight. If the keepalive timer was
    used up by a ping, and the peer closes its receive window while data is in flight and then disappears, the timeout takes that data
    out of flight, nothing can be sent, and neither alarm is set: only window probes go out, for ever, and the session is never given up,
    whatever its keepalive period and retransmit limit (C70_detected_refuted).
64. Every data packet sent moves the timeout of all data in flight (rescheduleTimeoutAlarm), so an application that goes on writing a little
    at a time, below the congestion window, postpones the detection of a dead peer until the window is full; C70_detected_partial
    counts from the last data sent.
65. EPollRunLoop does not look at the result of epoll_ctl and remembers a descriptor by its number: if one is closed while registered for two
    conditions and its number is used again, registering the new one asks the kernel to modify an entry it has dropped; the new descriptor
    is never polled (C74_watched_all_refuted). Registered for one condition only, it works.
66. SelectRunLoop ends its run, without a stop, if any registered descriptor is not open (EBADF breaks out of the loop), so one descriptor closed
    too early ends the service of all others and of all timers (C74_select_refuted).
67. stop() in a timer's action does not keep the other timers that are due from running (C73_stop_ex), while stop() in an action or a task keeps
    everything else from running; and a stop() before run() is forgotten. SelectRunLoop puts descriptors of any number into its fd_set:
    1024 and above write beyond it (by inspection, SelectRunLoop.cpp 54).
68. URIParse::parse: a CR or LF in the fragment makes every part empty, one in the path makes the authority and the path vanish, while the scheme
    stays (C75_newline_refuted): text from elsewhere with a newline at its end is not refused but taken for another URI.
69. The password ends at the first "@": of "rtmfp://joe:p@ss@h/" the public URI is "rtmfp://ss@h/" and the host "ss@h", so part of a password with an
    unescaped "@" gets where publicUri is logged or sent (C77_public_refuted).
70. A host followed by ":" without a number ("h:", allowed by RFC 3986 3.2.3, or "h:x") has neither host nor port: the last expression does not
    match at all (host_parts' third case).
71. A relative reference whose dots go away can leave a path beginning with "//" which, without an authority, is read as one: "/.//c" against "a:b"
    gives "a://c" (C76_reparse_refuted; so does RFC 3986's own pseudo-code).
72. lowercase passes chars to tolower without a cast: a scheme with a byte of 128 or more is undefined behaviour (C75_scheme_refuted).
73. toJSON copies bytes from 0x80 as they are: an AMF string that is not UTF-8 gives a text that is not UTF-8 (and so not JSON by RFC 8259 8.1).
74. test/SimpleWebSocket.cpp accepts unmasked frames from the client, which RFC 6455 5.1 says MUST end the connection (C81_unmasked_refuted).
75. After a Close frame has been received and answered the connection stays open and later messages are delivered (C81_after_close_refuted); it
    ends only at the second Close frame. After cleanClose the application's messages are still sent (C81_send_after_close_refuted).
76. Control frames may be fragmented and of any length up to 16 MB; a ping of more than 125 bytes is answered with a pong that RFC 6455 5.5
    forbids (C81_control_refuted). Reserved bits and opcodes are ignored (C81_reserved_refuted).
77. shutdown() from a message callback does not stop the messages that are already in the buffer, while those in a later read are not delivered
    (C79_chunks_refuted): what the application sees depends on how TCP cut the stream.
78. There is no limit on the sum of a message's fragments nor on the HTTP header block: one client can make the server use any amount of memory
    (by inspection). Text messages are not checked for UTF-8 (RFC 6455 8.1).
79. The opening handshake looks for "upgrade" anywhere in the Connection fields ("no-upgrade" will do), does not look at the HTTP version in the request
    line and takes any key (C82_lax_refuted), while "Upgrade: websocket, foo", which RFC 6455 4.2.1 allows, is refused (C82_upgrade_refuted).
80. _trim, _istchar and lowercase pass chars to isspace, isalpha and tolower without a cast: any client that sends a byte of 128 or more at an end of a
    header value, in a name or in the Upgrade or Connection fields makes the server's behaviour undefined (C82_byte_refuted).
81. TCStream::setStreamID runs onOpen before it flushes the queued commands (TCConnection.cpp:478-492): data, audio or video sent from onOpen goes out
    before the publish that was asked for earlier (C83_order_refuted).
82. RecvFlow::setBufferCapacity(SIZE_MAX), or any capacity near 2^64, makes SendFlow::onAck's m_ackedPosition + bufferAdvertisement wrap
    (test/RTWebSocket.cpp:885): after the first acknowledged byte the sender may send nothing and both ends wait (C84_capacity_refuted). The peer's
    delta is not checked either.
83. The capacity does not bound what a RecvFlow buffers: an unpaused flow advertises all of it however much of an incomplete message it holds
    (C84_buffer_refuted), and neither the window nor the fact that the flow was rejected or closed is looked at when data arrives (by inspection): a peer
    can make it use any amount of memory.
84. onDataAbandon adds a count from the peer without a limit: m_nextMessageNumber can go back, and two messages get one number (C84_numbers_refuted).
85. With minOutstandingThresh and outstandingThresh below MIN_ACK_WINDOW (2800) a sender waits for acknowledgements that the peer, which counts to
    m_ackWindow first, does not send (by inspection, test/RTWebSocket.cpp:425, 486, 519).
86. close() inside a packet's callback does not stop onInterfaceReadable (src/PosixPlatformAdapter.cpp:231-235): it calls recvmsg again on the number of the
    closed descriptor. If the callbacks opened a descriptor meanwhile (or another thread did), its datagrams are read and given to RTMFP as packets of the
    closed interface (C85_own_refuted). If close() came with the deletion of the adapter, `this` is gone too.
87. A datagram of more than 8192 bytes is cut and passed on as if whole (C85_whole_refuted).
88. A function given to notifyWhenInterfaceWritable from inside onwritable is dropped if that onwritable answers false, although true was returned
    (C85_notify_refuted).
89. After close() addUdpInterface still adds interfaces that are read, but no task runs for them (C85_reopen_refuted).
90. receiveOnePacket copies sizeof(int) bytes of an IP_TOS control message; on Linux that message has one byte of data, so the other three are whatever is
    in the (uninitialised) buffer or its padding (by inspection, src/PosixPlatformAdapter.cpp:269).
91. addUdpInterface and onHowLongToSleepDidChange before setRtmfp use a null m_rtmfp or m_rtmfpAlarm (by inspection, 106, 138); and the reading loop has no
    limit, so that a sender faster than RTMFP keeps everything else from running (by inspection, 231-235).
92. PosixStreamPlatformAdapter::writeBytes does not register for writing: bytes written outside onwritable, without a notifyWhenWritable, are taken and never
    sent (C86_flush_refuted); nor does attachToRunLoop register while bytes wait but onwritable is not set (C86_attach_refuted).
93. If the peer sends anything after onClientClosed and before the buffered bytes are sent, the adapter closes the socket and they are lost, although
    writeBytes took them before (test/PosixStreamPlatformAdapter.cpp:193-205; C86_last_refuted).
94. A client that has stopped taking bytes (READABLE unregistered) and then closes leaves the socket shut down but open for ever: nothing looks for the
    peer's end and there is no timeout (C86_end_refuted). A socket given after onClientClosed is not even shut down (C86_late_refuted).
95. A function set by setOnReceiveBytesCallback or notifyWhenWritable from inside the old one is dropped if that answers false
    (C86_again_refuted); setting it, or onClientClosed, destroys the std::function that is running (by inspection, 163-164, 199, 216).
96. setSocketFd after close() is let happen; bytes left of the old connection are sent on the new one (C86_socket_refuted).
97. A writable event whose onwritable calls close() goes on to sendto(-1) if bytes are buffered, fails and reports onStreamDidClose to the client
    that closed (by inspection of the model and 214-238).
98. The run loops work out how long to sleep from the time cached when the last select or epoll_wait returned, not from the time it is
    (SelectRunLoop.cpp:82, EPollRunLoop.cpp:136): whatever the callbacks took is slept again, so timers fire that much late (C87_stale_refuted).
99. RunLoop::clear drops the stop timer of a run in progress, which then goes on past its runInterval (C87_clear_refuted).
100. With a negative minSleep an overdue timer makes the select loop end (EINVAL), unfired, and the epoll loop wait without limit
    (C87_negative_refuted).
101. Less than half a microsecond before a timer the select loop spins (C87_spin_refuted).
102. The next IHello, IIKeying or Session Close is timed from when the one before was due, not from when it was sent: after a late timer two of
    them can be sent a moment apart (Session.cpp:769, Timer.cpp:139; C88_gap_refuted). Counted from the first the times are kept (C88_hello).
103. validate_public skips leading zeros but looks at each byte from its least significant bit (FlashCryptoAdapter_OpenSSL.cpp:376-390): of the first byte
    that is not zero it counts the zeros before its first one and not those after its last. Public keys with 9 zeros after the first one can pass,
    and some with up to 22 do not (C89_zeros_refuted, C89_validate).
