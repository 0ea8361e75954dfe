{"id": "C01", "title": "VLU integers survive the wire", "statement": "VLU::append/encode of any uintmax_t value, followed by any other bytes, is parsed back by VLU::parse to the same value, consuming exactly the bytes that were written; the encoding is 1 to 10 bytes long and no shorter byte string parses to the same value unless the value is the saturation value.", "quantifier": "every value in 0..2^64-1 and every trailing byte string", "why_tests_cant": "2^64 values times unbounded suffixes; the 7-bit group boundaries and the top group are easy to sample and easy to miss.", "anchors": ["src/VLU.cpp: VLU::encode, VLU::append, VLU::parse"]}
{"id": "C02", "title": "VLU::parse is bounded and saturating on hostile input", "statement": "Given a limit, VLU::parse never examines a byte at or past the limit; it answers 0 exactly when no terminating byte lies before the limit, otherwise it answers the number of bytes through the first terminating byte, and the value is the mathematical value of the groups clamped to UINTMAX_MAX (it never wraps).", "quantifier": "every byte string of every length, including overlong ones, with every limit", "why_tests_cant": "overlong encodings of arbitrary length cannot be enumerated; wrap versus saturate differs only on rare inputs.", "anchors": ["src/VLU.cpp: VLU::parse"]}
{"id": "C03", "title": "Option lists round-trip and end markers are unambiguous", "statement": "Any list of options (type, value) written with Option::append, optionally followed by an end-marker and any trailing bytes, is read back by repeated Option::parse as the same list in the same order; an option with an empty value is never confused with the end marker; on arbitrary bytes the parser never accepts a field that extends past the limit.", "quantifier": "every list of options of any length and content, every trailing byte string, and every arbitrary byte string", "why_tests_cant": "length prefixes nest (field length covers a VLU type); boundary cases are combinatorial.", "anchors": ["src/VLU.cpp: VLU::parseField, Option::parse, Option::append"]}
{"id": "C04", "title": "PacketAssembler never writes outside its buffer and failed operations change nothing that will be sent", "statement": "For any sequence of init/startChunk/push/pushField/pushVLU/commitChunk/rollbackChunk calls made according to the interface, every byte written lies inside the packet buffer; an operation that answers false leaves the bytes of the packet so far (toVector) unchanged; rollbackChunk restores exactly the packet as it was before the matching startChunk.", "quantifier": "every call sequence, every buffer size, every pushed content", "why_tests_cant": "buffer exhaustion can occur at every byte position inside every operation.", "anchors": ["src/PacketAssembler.cpp: PacketAssembler::*", "include/rtmfp/PacketAssembler.hpp"]}
{"id": "C05", "title": "A packet built by PacketAssembler is parsed by the receiver into the same chunks", "statement": "If chunks are assembled with startChunk, successful pushes and commitChunk (with any failed chunks rolled back), and the packet is then padded with any number of 0xff bytes by encryption, the receiver's packet parser (ISession::onReceivePacket) reports the same header fields (flags, timestamp, timestamp echo) and dispatches exactly those chunks, same types and payloads, in the same order.", "quantifier": "every list of chunks that fits, every header flag combination, every padding length", "why_tests_cant": "two independently written codecs; agreement must hold for all chunk lists and header options.", "anchors": ["src/PacketAssembler.cpp", "src/Session.cpp: ISession::onReceivePacket"]}
{"id": "C06", "title": "Packet parser never reads beyond the datagram", "statement": "For any decrypted datagram contents, the packet header and chunk loop only examine bytes inside the datagram, terminate, and hand each chunk handler a payload lying inside the datagram; a truncated trailing chunk is not dispatched.", "quantifier": "every byte string of every length", "why_tests_cant": "hostile datagrams; chunk length fields can point anywhere.", "anchors": ["src/Session.cpp: ISession::onReceivePacket, ISession::onReceivePacket chunk loop"]}
{"id": "C07", "title": "Session-ID scrambling is inverted by the receiver", "statement": "For every session ID and every ciphertext of at least 8 bytes, the receiver recovers exactly the sender's session ID and ciphertext from the scrambled packet; datagrams shorter than the minimum are rejected without being read past their end.", "quantifier": "every 32-bit session ID and every ciphertext", "why_tests_cant": "xor scrambling over packet words; short-packet boundary.", "anchors": ["src/Session.cpp: ISession::encryptAndSendPacket", "src/RTMFP.cpp: RTMFP::onReceivePacket"]}
{"id": "C08", "title": "IndexSet behaves as a mathematical set of integers", "statement": "After any sequence of add(range)/remove(range)/add(set)/remove(set)/clear calls an IndexSet contains exactly the integers a mathematical set would contain, and its stored ranges are sorted, non-overlapping and non-adjacent, so lowest/highest index, first/last range, the count and iteration agree with the set.", "quantifier": "every operation sequence with every from/to in 0..2^64-1 including both extremes", "why_tests_cant": "range merging/splitting has many relative-position cases and special cases at 0 and UINTMAX_MAX.", "anchors": ["src/IndexSet.cpp", "include/rtmfp/IndexSet.hpp"]}
{"id": "C09", "title": "List names are stable handles on an ordered sequence", "statement": "List<T> behaves like a sequence with stable names: after any sequence of insertions, removals, moves and rotations, iteration in both directions yields the same values in the specified order, a name returned by an insertion denotes its value until it is removed and never another live element, and size equals the number of live elements.", "quantifier": "every operation history, including growth of the underlying storage and reuse of names", "why_tests_cant": "free-list reuse and storage growth only manifest over long histories.", "anchors": ["include/rtmfp/List.hpp: List<T>"]}
{"id": "C10", "title": "SumList's sum is the total size of its current members", "statement": "After any sequence of value-carrying insertions, removals, moves and clears, SumList::sum() equals the sum of the size function over the values currently in the list.", "quantifier": "every operation history", "why_tests_cant": "running-counter drift only shows up on particular histories.", "anchors": ["include/rtmfp/List.hpp: SumList<T>"]}
{"id": "C11", "title": "Written messages are fragmented losslessly and within limits", "statement": "SendFlow::write splits any message into consecutive fragments with consecutive sequence numbers whose concatenation is the message, each no longer than the maximum fragment length, with fragment-control marks forming exactly WHOLE or BEGIN MIDDLE* END, so that the message boundaries are recoverable from the fragments alone.", "quantifier": "every message of every length (including empty) and every startup-options size", "why_tests_cant": "off-by-one at fragment-size multiples; must hold for all lengths.", "anchors": ["src/SendFlow.cpp: SendFlow::basicWrite"]}
{"id": "C12", "title": "A receiving flow delivers each message exactly once, in order, whatever the network does", "statement": "With the default receive order, if the fragments arriving on a RecvFlow are any selection, repetition and reordering of the fragments produced by a well-behaved sender, then the messages passed to onMessage are, in order and without duplicates, messages the sender wrote, each intact; and once every fragment up to some sequence number has arrived, every message ending at or before it has been delivered.", "quantifier": "every message history, every arrival schedule (loss, duplication, reordering)", "why_tests_cant": "arrival schedules are unbounded; needs an invariant over the reassembly buffer.", "anchors": ["src/RecvFlow.cpp: RecvFlow::onData, insertFragment, deliverMessage, tryDelivery"]}
{"id": "C13", "title": "Network-order delivery is exactly-once", "statement": "With RO_NETWORK receive order and a well-behaved sender, every message is delivered at most once, intact, and is delivered as soon as all of its fragments have arrived, regardless of gaps before it.", "quantifier": "every message history, every arrival schedule", "why_tests_cant": "as above; the segment-linking logic is only exercised by unusual interleavings.", "anchors": ["src/RecvFlow.cpp: RecvFlow::insertFragment, tryDelivery"]}
{"id": "C14", "title": "A malformed peer cannot crash a receiving flow", "statement": "Whatever fragments (sequence numbers, fragment-control marks, forward sequence numbers, final flags) a peer sends, in any order, RecvFlow processes them without failing (no out-of-range access in the receive buffer).", "quantifier": "every sequence of user-data chunks with arbitrary contents, for each receive order", "why_tests_cant": "an adversary picks the inputs; links between fragments can go stale only for particular malformed histories.", "anchors": ["src/RecvFlow.cpp: RecvFlow::insertFragment, deliverMessage, tryDelivery"]}
{"id": "C15", "title": "Acknowledgements are truthful", "statement": "Every sequence number that an acknowledgement chunk assembled by a receiving flow covers (cumulatively or in ranges) has either been received or been declared abandoned by the sender (forward sequence number); if the acknowledgement is not truncated it covers all of them. The sender decodes from the chunk exactly the set that was encoded.", "quantifier": "every set of received sequence numbers, every available packet space (truncation point)", "why_tests_cant": "run-length encoding of holes minus one; truncation can stop at every point.", "anchors": ["src/RecvFlow.cpp: RecvFlow::assembleAck", "src/SendFlow.cpp: SendFlow::onAck, ackRange"]}
{"id": "C16", "title": "The cumulative ack and forward sequence number never move backwards", "statement": "Over any history of received data, RecvFlow::getCumulativeAckSequenceNumber and getForwardSequenceNumber never decrease and the forward sequence number never exceeds the cumulative ack.", "quantifier": "every history of received user data", "why_tests_cant": "monotonicity is a property of all histories.", "anchors": ["src/RecvFlow.cpp: RecvFlow::onData"]}
{"id": "C17", "title": "Sender accounting of outstanding bytes is exact", "statement": "After any history of writes, transmissions, acknowledgements, losses and abandonments, SendFlow::getOutstandingBytes equals the total size of fragments currently in flight, never underflows, and getBufferedSize equals the total size of fragments still queued.", "quantifier": "every history of operations on a sending flow", "why_tests_cant": "counter drift appears only after specific interleavings of loss, retransmission and ack.", "anchors": ["src/SendFlow.cpp: assembleData, ackRange, onLoss, trimSendQueue, onSessionDidClose"]}
{"id": "C18", "title": "End-to-end reliable in-order delivery", "statement": "Connecting a sending flow to a receiving flow through a network that may drop, duplicate, delay and reorder packets arbitrarily, with all messages fully reliable, the sequence of messages delivered is always a prefix of the sequence of messages written.", "quantifier": "every write history and every network behaviour", "why_tests_cant": "composition over all schedules.", "anchors": ["src/SendFlow.cpp", "src/RecvFlow.cpp"]}
{"id": "C19", "title": "Abandoned messages never block or corrupt later ones", "statement": "If the sender abandons messages, the receiver still delivers only whole messages that the sender wrote, in order, each at most once, and messages after the abandoned ones become deliverable once the forward sequence number reaches the receiver.", "quantifier": "every write/abandon history and every network behaviour", "why_tests_cant": "abandonment races with partial arrival of the abandoned fragments.", "anchors": ["src/SendFlow.cpp: findForwardSequenceNumber, trimSendQueue", "src/RecvFlow.cpp: onData"]}
{"id": "C20", "title": "A write receipt finishes exactly once", "statement": "For every history of use-count changes, expirations and abandonments, a WriteReceipt's onFinished callback runs at most once, runs with abandoned=false only when every use was released without abandonment, and a receipt is never reported both delivered and abandoned.", "quantifier": "every history of operations on a receipt, including chains", "why_tests_cant": "the callback can be reached from three different operations in any order.", "anchors": ["src/WriteReceipt.cpp: WriteReceipt, IssuerWriteReceipt"]}
{"id": "C21", "title": "Chained receipts are abandoned transitively", "statement": "In a WriteReceiptChain, when a receipt is abandoned every later receipt appended to the chain that has not yet finished is abandoned when it is next examined, and no receipt is abandoned because of a later one.", "quantifier": "every chain length and every subset of abandoned receipts", "why_tests_cant": "transitive behaviour over unbounded chains.", "anchors": ["src/WriteReceipt.cpp: WriteReceiptChain, WriteReceipt::abandonIfNeeded"]}
{"id": "C22", "title": "The reorder buffer releases each message once and flags late ones truthfully", "statement": "For every arrival sequence and timing, ReorderBuffer passes each inserted message to onMessage at most once, messages not flagged late are passed in increasing sequence order, a message is flagged late exactly when a message with a higher sequence number was passed before it, and flush releases everything that is queued.", "quantifier": "every insertion sequence, every clock behaviour", "why_tests_cant": "ordering property over all schedules.", "anchors": ["src/ReorderBuffer.cpp"]}
{"id": "C23", "title": "Timers fire in time order, never early and never after cancel", "statement": "TimerList::fireDueTimers(now) only runs actions of timers whose due time is not after now, in non-decreasing due-time order, never runs a cancelled timer, and afterwards no due timer is left; a timer rescheduled or cancelled by an earlier action in the same pass is honoured.", "quantifier": "every set of timers and every behaviour of the actions (scheduling, rescheduling, cancelling)", "why_tests_cant": "actions mutate the set being iterated; unbounded combinations.", "anchors": ["src/Timer.cpp: TimerList::fireDueTimers, Timer"]}
{"id": "C24", "title": "A recurring timer keeps its phase and never schedules itself in the past", "statement": "After firing at time now, a recurring timer's next due time is strictly after its previous due time, and when catch-up is off it is after now and differs from the original due time by a whole number of intervals.", "quantifier": "every due time, interval and now", "why_tests_cant": "arithmetic over all reals; rounding direction.", "anchors": ["src/Timer.cpp: Timer::basicFire"]}
{"id": "C25", "title": "Work handed to a Performer is never lost and runs in order", "statement": "Whatever the interleaving of threads calling Performer::perform with the run loop, a task that has been queued always has a wake-up pending for the run loop, and tasks run in the order they were queued.", "quantifier": "every number of threads and every interleaving of their individual steps", "why_tests_cant": "lost-wakeup races depend on instruction-level interleavings.", "anchors": ["src/Performer.cpp: Performer::perform, onSignaled, fireItems"]}
{"id": "C26", "title": "The flow-sync barrier releases exactly when complete", "statement": "FlowSyncManager::sync holds back each flow that reaches a barrier until the announced number of flows have reached it, then releases all of them; a flow is never left held after its barrier completes, and flows at different barriers do not affect each other.", "quantifier": "every sequence of sync calls with every ID, count and flow", "why_tests_cant": "schedules over many flows.", "anchors": ["src/FlowSyncManager.cpp"]}
{"id": "C27", "title": "Sync messages round-trip", "statement": "FlowSyncManager::parse of FlowSyncManager::makeSyncMessage(id, count) answers true with the same id and count, and parse answers false for any message that is not a sync message.", "quantifier": "every 32-bit id and count; every byte string", "why_tests_cant": "sign/width conversions only show for large values.", "anchors": ["src/FlowSyncManager.cpp: makeSyncMessage, parse"]}
{"id": "C28", "title": "The congestion window stays within bounds", "statement": "Whatever acknowledgements, losses, ECN marks and timeouts occur, the congestion window never drops below the protocol minimum and its arithmetic never underflows.", "quantifier": "every history of congestion events", "why_tests_cant": "unbounded feedback histories with integer division.", "anchors": ["src/Session.cpp: Session::updateCWND, onTimeoutAlarm"]}
{"id": "C29", "title": "Retransmission timeout back-off is bounded and recovers", "statement": "The effective retransmission timeout never drops below the measured timeout floor, grows on consecutive timeouts and never exceeds the maximum, and returns to the measured value when progress is made.", "quantifier": "every sequence of timeouts and measurements", "why_tests_cant": "unbounded histories.", "anchors": ["src/Session.cpp: Session::onTimeoutAlarm, onPacketHeader"]}
{"id": "C30", "title": "Session states only move forward and a closed session is inert", "statement": "A session's state only ever advances through its life cycle (opening, open, closing, closed) in the allowed order; after it is closed no user callback of the session's flows runs again because of packets, timers or API calls, and the owner is told exactly once.", "quantifier": "every sequence of packets, timer expirations and API calls", "why_tests_cant": "state-machine histories are unbounded.", "anchors": ["src/Session.cpp: Session::close, abort, setNearclose, setFarcloseLinger, onCloseChunk, onCloseAckChunk", "src/RTMFP.cpp: onSessionDidClose"]}
{"id": "C31", "title": "Handshake cookies are accepted only for the right address and only while fresh", "statement": "A cookie made for an address is accepted for that address at any time up to its lifetime, is not accepted after that, is reported as an address mismatch for any other address, and (assuming the hash is collision-free) no byte string that was not made by this instance for that time and address is accepted.", "quantifier": "every creation time, check time, pair of addresses and candidate byte string", "why_tests_cant": "ranges over all times and adversarial strings.", "anchors": ["src/RTMFP.cpp: RTMFP::makeCookie, RTMFP::checkCookie"]}
{"id": "C32", "title": "Both ends of a Flash-crypto handshake agree", "statement": "For every combination of the two ends' HMAC and session-sequence settings, when the keying handshake succeeds each end sends what the other end requires to receive, and each end's encryption key, HMAC key and nonces are the other end's decryption key, HMAC key and far nonces.", "quantifier": "every combination of configuration flags and HMAC lengths, every keying component", "why_tests_cant": "negotiation is three-way and asymmetric; keys depend on argument order.", "anchors": ["src/FlashCryptoAdapter.cpp: negotiateFlags, negotiationFlags, generateInitiatorKeyingComponent, generateResponderKeyingComponent, initiatorCombineResponderKeyingComponent, computeKeysAndNonces"]}
{"id": "C33", "title": "Encrypted packets decrypt to what was sent", "statement": "For every packet, every stage of the session and every negotiated option (checksum or HMAC, session sequence numbers), the peer's decrypt recovers the packet (followed by padding) and rejects any packet whose checksum/HMAC does not verify.", "quantifier": "every packet content and option combination", "why_tests_cant": "front-margin and padding arithmetic differs for each option combination and length.", "anchors": ["src/FlashCryptoAdapter.cpp: FlashCryptoKey::encrypt, decrypt, getEncryptSrcFrontMargin", "src/PlainCryptoAdapter.cpp"]}
{"id": "C34", "title": "Replayed packets are rejected", "statement": "When session sequence numbers are in use, over any history of arriving packets no session sequence number is accepted twice, and a fresh number is accepted unless it is more than the allowed gap behind the highest accepted.", "quantifier": "every history of arriving packets", "why_tests_cant": "replay can happen at any distance in the past.", "anchors": ["src/FlashCryptoAdapter.cpp: FlashCryptoKey::decrypt", "src/IndexSet.cpp"]}
{"id": "C35", "title": "Transmission opportunities follow priority and are shared fairly", "statement": "When an interface is writable, a session with something to send at a higher priority is always served before one at a lower priority, and among sessions waiting at the same priority service is round-robin, so no waiting session is passed over twice before another is served.", "quantifier": "every set of waiting sessions and every pattern of them having more to send", "why_tests_cant": "fairness is a property of unbounded runs.", "anchors": ["src/Interface.cpp: Interface::onWritable, scheduleWrite"]}
{"id": "C36", "title": "User-data chunks are decoded as they were encoded", "statement": "The receiver of a user-data or next-user-data chunk assembled by a sending flow recovers the same flow, sequence number, forward sequence number, flags and data; arbitrary malformed chunks are rejected without reading out of bounds.", "quantifier": "every fragment, every sequence/forward number, every packing of several fragments in one packet, and arbitrary bytes", "why_tests_cant": "implicit fields in follow-on chunks depend on the previous chunk.", "anchors": ["src/SendFlow.cpp: SendFlow::assembleData", "src/Session.cpp: Session::onUserDataChunk, onNextUserDataChunk, onUserData"]}
{"id": "C37", "title": "AMF0 values round-trip", "statement": "Any AMF0 value nested no deeper than the decoder's limit encodes to bytes which, followed by any other bytes, decode to an equal value and leave the cursor just after the encoding; duplicate() therefore answers an equal value.", "quantifier": "every AMF0 value and every trailing byte string", "why_tests_cant": "recursive data type; unbounded.", "anchors": ["src/AMF.cpp: AMF0::encode, AMF0::decode, AMF0Object, AMF0Array, AMF0String"]}
{"id": "C38", "title": "AMF0 decoding is safe on hostile input", "statement": "For any bytes AMF0::decode terminates, never examines a byte at or past the limit, never moves the cursor on failure, and never recurses deeper than the limit.", "quantifier": "every byte string", "why_tests_cant": "adversarial lengths and nesting.", "anchors": ["src/AMF.cpp: AMF0::decode, setFromEncoding"]}
{"id": "C39", "title": "Addresses round-trip and are consistently ordered", "statement": "An encoded Address decodes to an equal address with the same origin and consumes exactly its encoding; operator< is a strict total order on addresses compatible with operator==; mapping IPv4 to IPv6 and back restores the address.", "quantifier": "every address, port, origin and trailing bytes; every pair and triple of addresses", "why_tests_cant": "2^128 addresses; ordering laws are about pairs and triples.", "anchors": ["src/Address.cpp"]}
{"id": "C40", "title": "Hex round-trips and rejects malformed text", "statement": "Hex::decode of Hex::encode of any bytes restores the bytes; for any text decode answers true exactly for sequences of two-digit groups separated by optional white space and otherwise leaves the destination unchanged.", "quantifier": "every byte string and every text", "why_tests_cant": "unbounded text inputs.", "anchors": ["src/Hex.cpp"]}
{"id": "C41", "title": "TC metadata and message headers round-trip", "statement": "TCMetadata::parse of TCMetadata::encode restores stream ID and receive order; TCMessage::parseHeader of TCMessage::message restores type, timestamp and payload; other metadata is rejected.", "quantifier": "every stream ID, receive order, type, timestamp and payload", "why_tests_cant": "32-bit ranges.", "anchors": ["src/TCMessage.cpp"]}
{"id": "C42", "title": "Message timestamps compare consistently across wrap-around", "statement": "timestamp_lt/gt order any two 32-bit timestamps less than half the range apart by their true order across wrap-around; exactly one of lt, gt, equal holds; timestamp_diff answers the signed distance.", "quantifier": "every pair of 32-bit timestamps", "why_tests_cant": "2^64 pairs.", "anchors": ["src/TCMessage.cpp: timestamp_lt, timestamp_gt, timestamp_diff"]}
{"id": "C43", "title": "Media message headers round-trip", "statement": "Media::basicParseHeader of Media::basicMakeMessage restores the flag, type, decode and presentation ticks, the option list position and the payload offset, for every pair of time stamps and every well-formed option list.", "quantifier": "every pair of 64-bit tick counts, every option list and payload", "why_tests_cant": "signed offset encoding over 2^128 pairs.", "anchors": ["src/Media.cpp: Media::basicMakeMessage, Media::basicParseHeader"]}
{"id": "C44", "title": "The checksums detect the errors they promise to", "statement": "in_cksum of a buffer is what the verifier recomputes, changes whenever a single 16-bit word changes to a different residue; crc32 computed over a concatenation equals continuing the computation, and any single-bit corruption changes it.", "quantifier": "every buffer and every single corruption", "why_tests_cant": "quantifies over all buffers and positions.", "anchors": ["src/Checksums.cpp"]}
{"id": "C45", "title": "URI path normalisation and splitting", "statement": "URIParse::removeDotSegments terminates on every path and its result contains no '.' or '..' segments; split with one separator is inverted by joining and yields at most the requested number of parts; percentDecode inverts percent-encoding.", "quantifier": "every string", "why_tests_cant": "unbounded strings.", "anchors": ["src/URIParse.cpp: removeDotSegments, split, percentDecode"]}
{"id": "C46", "title": "Endpoint discriminators select the intended endpoint", "statement": "A FlashCrypto certificate/adapter is selected by an EPD exactly when the EPD is well formed, non-empty, and each of the criteria it contains is met (a fingerprint, when present, decides alone); in particular an endpoint is always selected by its own canonical EPD and never by another fingerprint.", "quantifier": "every EPD byte string and every certificate", "why_tests_cant": "adversarial byte strings.", "anchors": ["src/FlashCryptoAdapter.cpp: isSelectedByEPD, EPDParseState::parse, makeEPD"]}
{"id": "C47", "title": "Glare is resolved to exactly one session", "statement": "When two endpoints with different certificates initiate to each other simultaneously, exactly one of them concludes that it wins.", "quantifier": "every pair of certificates", "why_tests_cant": "property of all pairs.", "anchors": ["src/FlashCryptoAdapter.cpp: checkNearWinsGlare", "src/PlainCryptoAdapter.cpp: checkNearWinsGlare"]}
{"id": "C48", "title": "Remote transactions complete exactly once and closing is final", "statement": "Every TCConnection transaction handler is called at most once (by the response or by close), unknown responses are ignored, after close no callback runs, and closing always completes normally whatever the peer answered before.", "quantifier": "every sequence of user calls and peer messages", "why_tests_cant": "unbounded histories with adversarial peer.", "anchors": ["src/TCConnection.cpp: TCConnection::basicTransact, onTransactionResponse, basicClose, createStream"]}
{"id": "C49", "title": "RTMP chunk streams are reassembled as sent", "statement": "Any sequence of messages written through RTMP, chunked on any chunk streams with any chunk size changes and interleaving, is reconstructed by the receiving RTMP into the same messages (stream, type, timestamp, payload) in order of completion.", "quantifier": "every message sequence, every interleaving and chunk size", "why_tests_cant": "header compression depends on the entire history of each chunk stream.", "anchors": ["test/RTMP.cpp: queueStartChunk, queueNextChunk, onOpenInput"]}
{"id": "C50", "title": "Reference-counted handles neither leak nor double-release", "statement": "For every sequence of constructions, copies, moves, assignments (including self-assignment), swaps and destructions of Retainer handles, each object's count equals the number of handles that hold it plus outside holders, so the object is released exactly when the last holder goes away.", "quantifier": "every sequence of handle operations on any number of objects and handles", "why_tests_cant": "aliasing and self-assignment cases across unbounded histories.", "anchors": ["include/rtmfp/Retainer.hpp", "src/Object.cpp"]}
{"id": "C51", "title": "The advertised receive window is the free buffer space", "statement": "The window a receiving flow advertises in its acknowledgements is the free space of its receive buffer limited by the window limit, rounded up to 1024-byte blocks, and at least one block unless the application made the capacity or the limit zero or put the flow on hold.", "quantifier": "every state of a receiving flow, every capacity, limit and buffered amount", "why_tests_cant": "the result depends on three 64-bit quantities and wraps around only near SIZE_MAX", "anchors": ["src/RecvFlow.cpp:427-486"]}
{"id": "C52", "title": "Resuming the send-queue scan skips nothing", "statement": "Whenever SendFlow::assembleData puts a fragment into a packet, every fragment queued before it is in flight: resuming the scan at m_last_send never passes over a fragment that is waiting to be sent or sent again.", "quantifier": "All executions of a session with any number of flows: writes, packets, acknowledgements (any bytes), losses, timeouts, abandonments, closes, exceptions, in any order.", "why_tests_cant": "The resume point survives acknowledgements, losses and trimming that happen between packets; the bad interleavings are unboundedly many.", "anchors": ["src/SendFlow.cpp:391-512", "src/SendFlow.cpp:667-672"]}
{"id": "C53", "title": "Media flow metadata round-trips", "statement": "Media::setFromMetadata of Media::toMetadata restores stream ID, codec, media type, time origin, time scale, receive intent, reorder suggestion, track name and track ID; options of unknown type are ignored wherever they stand; metadata without stream ID or codec is rejected; every byte string is handled without reading outside it.", "quantifier": "every description with 64-bit numbers and byte strings of any length; every byte string", "why_tests_cant": "nine independent optional fields of unbounded size, and unbounded unknown options between them.", "anchors": ["src/Media.cpp:78-217"]}
{"id": "C54", "title": "Audio and video payloads are classified safely and consistently", "statement": "Every classification function of TCMessage.cpp is defined on every payload, including empty and truncated ones; a payload with initialisation data is always special and never a keyframe; the end-of-sequence payload made for a codec is recognised as such and names its codec.", "quantifier": "every byte string, every 32-bit codec identifier", "why_tests_cant": "the consistency of seven predicates over all payloads.", "anchors": ["src/TCMessage.cpp:58-262"]}
{"id": "C55", "title": "Base round trip time is a windowed minimum", "statement": "After every round trip time measurement the base round trip time is at most every round trip time measured in the last 150 seconds since the history was last reset, and it equals one of those measured in the last 210 seconds.", "quantifier": "all sequences of measurements (any values, any times that do not go back) and resets", "why_tests_cant": "the minimum is kept in buckets that are dropped by age; which measurements are still represented depends on the whole history of arrival times", "anchors": ["src/Session.cpp: Session::checkBaseRTT, Session::resetBaseRTT"]}
{"id": "C56", "title": "RTMP chunk input is safe and independent of how it is cut", "statement": "For every sequence of bytes arriving on an open RTMP connection, cut into pieces anywhere, the receiver never reads outside its input buffer, never fails an assertion and always stops; and the messages delivered, and whether the connection is closed for a protocol error, depend only on the concatenation of the pieces.", "quantifier": "all byte sequences, valid or not, and all ways to cut them", "why_tests_cant": "the parser decides from partial input whether to wait; wrong decisions show only for particular cuts of particular headers, and hostile inputs are unbounded", "anchors": ["test/RTMP.cpp: RTMP::onReceiveBytes, RTMP::onOpenInput, RTMP::onMessageCompleted"]}
{"id": "C57", "title": "The end of a flow reaches the receiver, once and last", "statement": "For a sender and a receiver joined by a network that drops, duplicates, delays and reorders packets: the receiving application's onComplete is called at most once, never as an error, after every delivered message, and only if the sender closed the flow; by then every message was delivered except those the sender gave up. If the flow is used reliably, then by the time the closed flow has nothing left to send or to have acknowledged, everything written was delivered and onComplete was called.", "quantifier": "all executions of sender, network and receiver, of any length", "why_tests_cant": "whether the last fragment carries the final mark each time it is sent, and whether the receiver acts on it, depends on the interleaving of close(), (re)transmission, loss and acknowledgement", "anchors": ["src/SendFlow.cpp: SendFlow::close, assembleData, onAck", "src/RecvFlow.cpp: RecvFlow::onData, tryDelivery, closeAndNotify"]}
{"id": "C58", "title": "A bound flow can always finish: no reachable state is stuck", "statement": "From every state that a sender and a receiver joined by a bad network can reach, if the flow has its flow id and the receiver's buffer size and window limit are not zero, timeouts, (re)transmissions and acknowledgements alone can bring the flow to the point where nothing waits to be sent or acknowledged. If the flow is used reliably everything written is then delivered, and if it was closed the receiver was told of the end.", "quantifier": "all executions of sender, network and receiver, of any length, and all packet margins of up to 10 bytes", "why_tests_cant": "deadlock between window, loss state, queue and acknowledgement needs particular histories; absence of any such history cannot be tested", "anchors": ["src/SendFlow.cpp: assembleData, onAck, trimSendQueue", "src/Session.cpp: onTimeoutAlarm", "src/RecvFlow.cpp: assembleAck"]}
{"id": "C59", "title": "A session follows its far end to another address only on fresh proof that it is there", "statement": "A session changes its address only to the address a packet came from and only if the packet carries the mobility check (a keyed hash over time, interface and address) for that very place, newer than the one it last moved by and at most 120 seconds old; unless the hash is forged, the instance itself sent that check to that place within the last 120 seconds. No check works twice for a session. Checks go only to the source of an authentic packet that is not the session's current address, at most one per session per second. Conversely, if a packet from a new place provokes a check and the far end's answer comes back within 120 seconds, the session moves and is found at its new address. Nothing undefined happens on any input.", "quantifier": "all hash functions with 32-byte results, secrets, addresses, packet contents and sequences of events", "why_tests_cant": "replay, reordering and forgery resistance quantify over all histories and packets; timing and interleaving of several sessions matter", "anchors": ["src/Session.cpp: makeMobilityCheck, sendMobilityCheck, onMobilityCheckReply, onPacketAfterChunks, onPingChunk, onPingReplyChunk"]}
{"id": "C60", "title": "The instance finds its open sessions by address and endpoint", "statement": "Whatever is found by address or by canonical endpoint is an open session that has that address or endpoint. A session that opens at, or moves to, an address is found there and stays found, wherever it moves, as long as it is open and no other session comes to its address. An initiator that overrides the session at its address replaces it. Every open session's address leads to a session.", "quantifier": "all sequences of opening, reuse, packets, moves and closing of any number of sessions", "why_tests_cant": "the tables are changed by four callbacks whose interleavings over several sessions with colliding addresses are unbounded", "anchors": ["src/RTMFP.cpp: findOpenSessionByAddress, findOpenSessionByEPD, onSessionDidOpen, onSessionDidClose, onSessionAddressDidChange, onIIKeying"]}
{"id": "C61", "title": "The handshake's chunks are read and written exactly as the protocol says, and what is signed is what is checked", "statement": "Every chunk of the startup handshake (IHello, forwarded IHello, RHello, redirect, cookie change, IIKeying, RIKeying) is accepted with certain parts if and only if it consists of exactly these parts in the wire grammar; no byte outside the chunk is ever read; a redirect without addresses means the address it came from. What is written is the grammar's text for the parts, or nothing at all if it does not fit in a startup packet, and packets made of chunks parse back to them. The text whose signature the far end checks is the text that was signed, and a signed text determines session ID, cookie, certificate and key components.", "quantifier": "all byte sequences of a chunk, all parts, all signature functions", "why_tests_cant": "exactness of a parser and injectivity of the signed text are about all byte strings and all pairs of them", "anchors": ["src/Session.cpp 160-192, 221-330, 844-865, 1793-1864", "src/RTMFP.cpp 131-160, 328-342, 406-424, 536-550"]}
{"id": "C62", "title": "A session opens only with the far end it was asked for, and only after that end signed for it", "statement": "Whatever arrives, whatever the application asks for and in whatever order pending tasks run, the handshake is never undefined. A session an initiator has opened has an authentic certificate selected by the endpoint discriminator it was asked for, and the holder of the certificate signed the session ID in use, the component the key was combined with, and the initiator's own component. A session a responder made had a cookie the responder itself made for the address, and the holder of an authentic certificate signed cookie, session ID and component. Texts are signed only in the two forms of the protocol. If the chunks of an undisturbed handshake are delivered, both ends open.", "quantifier": "all cryptography meeting the stated interface, all sequences of packets, requests, timeouts and task orders, all sessions", "why_tests_cant": "an attacker chooses packets and the thread pool chooses the order of tasks; a bypass would be one particular interleaving", "anchors": ["src/RTMFP.cpp 82-160, 343-470, 508-715", "src/Session.cpp 195-237, 412-443, 543-556, 740-788, 820-865, 1264-1388, 1644-1662"]}
{"id": "C63", "title": "What the handshake keeps is bounded and unique, and a session's life goes one way", "statement": "The number of initiators being checked is counted exactly and is at most 16. An initiator that has a session gets no second one for the same ID and component at the same address. A session never has an address twice among those it tries, and redirects bring it to no more than 24. Sessions being opened are for different endpoints, and of those being keyed no two are to the same far end. State never goes back; role, own ID and endpoint asked for never change. After shutdown no session is made.", "quantifier": "all cryptography, all sequences of events, all sessions and pairs of sessions", "why_tests_cant": "bounds and uniqueness under floods, retransmissions and arbitrary task orders concern every reachable state", "anchors": ["src/RTMFP.cpp 343-470, 508-715", "src/Session.cpp 195-237, 412-443, 740-788, 820-865, 1264-1388"]}
{"id": "C64", "title": "The two ends of an open session agree on whom they talk to, the session IDs and the key components", "statement": "If nothing verifies under an end's certificate but what that end signed, then an initiator's open session uses the ID of a session of the responder that is with this initiator and has the same components; and a responder's session uses the ID of a session the initiator made, with the initiator's certificate and component.", "quantifier": "all pairs of runs of two instances with any attacker between them, all cryptography where only the owner's texts verify", "why_tests_cant": "agreement is a statement about every pair of executions under an active attacker", "anchors": ["src/RTMFP.cpp 131-160, 528-666", "src/Session.cpp 1264-1388"]}
{"id": "C65", "title": "The handshake speaks only when it should, and a packet by itself neither makes nor ends a session", "statement": "Everything sent in a step is a hello of an opening session to an address it tries, its signed keying while it is keying to the address that answered, an answer to a packet, or the responder's signed keying while its session is open. A startup packet makes this end send at most one packet for its first hello and one for each keying in it, only for hellos that are for this end and keyings with a cookie this end made, and signs nothing for it. A packet changes nothing of a session but the addresses it tries (redirect with its tag) and, once, its cookie (by a chunk that has the cookie in use). A session changes state only for one of the listed reasons: only the application, a failure of its own key, a session that exists already, or an end with an authentic overriding certificate that signed a keying with a good cookie can end it.", "quantifier": "all cryptography, all reachable states, all events, all sessions", "why_tests_cant": "what an arbitrary packet cannot do in any reachable state is a universal claim about attackers", "anchors": ["src/RTMFP.cpp 131-160, 426-470, 508-715", "src/Session.cpp 195-237, 740-788, 820-865, 1264-1388, 1644-1671"]}
{"id": "C66", "title": "Acknowledgements are not forgotten", "statement": "A receiving flow owes an acknowledgement if and only if it is in its open session's list, once. Then the delayed-ack alarm is set, or the session is in a queue at the immediate priority of an interface the platform is watching; the latter holds after the alarm and after two packets with data. A session asked on its interface with an acknowledgement due sends one, for the flow that waited longest; it always fits.", "quantifier": "all runs of applications, packets, timers, losses, address changes, interfaces and writable events", "why_tests_cant": "forgetting an acknowledgement takes a particular interleaving of queues, alarms and flags", "anchors": ["src/Session.cpp 891-968, 1478-1557, 1723-1745", "src/RecvFlow.cpp 414-486", "src/Interface.cpp 16-60"]}
{"id": "C67", "title": "Data that may be sent gets scheduled", "statement": "A bound sending flow with fragments that are not in flight and room in the receiver's window is in its session's list for its priority, and the session is in a queue of a watched interface for this priority, or has fragments in flight and the timeout alarm set, or has the burst alarm set; after these alarms it is in the queue. Waiting handshake packets have the startup session in the queue of their interface. No run uses a session that is not there.", "quantifier": "all runs of applications, packets, timers, losses, address changes, interfaces and writable events", "why_tests_cant": "a lost wake-up takes a particular interleaving and shows only as a stall", "anchors": ["src/Session.cpp 132-192, 974-1073, 1221-1239, 1443-1557, 1723-1780, 2034-2068", "src/SendFlow.cpp 206-328, 391-512, 545-672", "src/Interface.cpp 16-60"]}
{"id": "C68", "title": "A redirector client's registration", "statement": "While connected, what the server knows after the client's messages is what the application has set: authenticated, in the table of active clients exactly if active (unless paused), exactly its addresses, its choice about the reflexive address, its load factor (or a timer is set to send it). There is a flow exactly while connecting or connected, a reconnect timer exactly while disconnected, attempts are at least five seconds apart, and closing is final. No run calls through a null pointer. Paused means no settings are sent.", "quantifier": "all sequences of calls, also from callbacks, connections, failures, messages and timers", "why_tests_cant": "calls from callbacks at every point of the life cycle, with every combination of settings", "anchors": ["src/RedirectorClient.cpp 1-414", "include/rtmfp/RedirectorClient.hpp 19-148"]}
{"id": "C69", "title": "The redirector's tables and choices", "statement": "Only open connections that have proved to know a password are in the server's tables; the others change nothing. A Redirect names, besides the static addresses, exactly the addresses advertised by the chosen clients in the permitted family, none twice; chosen are the client asked for by fingerprint, or the next ones in turn, least loaded first; over a row of redirects no client is chosen more than once more often than another. A connected client with the fingerprint asked for is found. A client whose messages all arrive is in the tables as it has set itself.", "quantifier": "all sequences of connections, messages of any bytes, closes, address changes, shuffles and redirects, any number of clients", "why_tests_cant": "connections that overlap, repeat a fingerprint or close late; all message bytes", "anchors": ["test/redirector.cpp 80-476", "include/rtmfp/RedirectorClient.hpp 85-106"]}
{"id": "C70", "title": "A dead peer is noticed, a live one is not dropped", "statement": "An open session is given up as dead only when data or a keepalive is in flight and no ack or ping reply has come for the whole retransmit limit. With keepalives on and a retransmit limit set, a session whose peer has fallen silent is given up within the keepalive period, the retransmit limit and a few timeouts, or two timeouts after the last data it still sends. Keepalives are sent only when nothing has been sent for the keepalive period.", "quantifier": "all sequences of sends, acks, pings, alarms with any lateness, changes of periods and of measured times", "why_tests_cant": "the interplay of three lazily reset alarms over unbounded time, with any order of arrivals", "anchors": ["src/Session.cpp 543-740", "src/Session.cpp 983-1064", "src/Session.cpp 1996-2066"]}
{"id": "C71", "title": "Idle sessions are closed, others are not", "statement": "A session is closed as idle only if it has no flow and has had none for the whole idle limit, and a session that stays without flows is closed when the limit is over, no later than its alarms are late.", "quantifier": "all sequences of flows bound and unbound, alarms with any lateness, changes of the limit", "why_tests_cant": "flows coming and going at any time relative to the lazily reset alarm", "anchors": ["src/Session.cpp 619-686", "src/Session.cpp 795-815"]}
{"id": "C72", "title": "The rate tracker measures what it is told", "statement": "Whatever calls are made there is no division by zero and no negative rate. An update raises the rate at its moment by exactly its count per window period, also when it starts a new window; between updates the rate never rises; it never stands for more than was counted in the last three window periods and is zero after two without updates; for a regular source it is right from the second window on to within one count per window.", "quantifier": "all sequences of updates, period changes and resets, all times", "why_tests_cant": "every position of updates in windows of any period; the boundary cases of the roll-over", "anchors": ["src/RateTracker.cpp 1-78"]}
{"id": "C73", "title": "The run loop runs what is registered and ready, and all of it", "statement": "An action runs only for a registration made before the last poll and not cancelled by then, if that poll reported its descriptor ready for its condition, once per poll and not after a stop; exceptions come before reads before writes; in a cycle that is not stopped no report is lost unless the registration is cancelled, and every task given with doLater before it is run or dropped by clear; tasks run in order, at most once each; once stopped, a run polls no more and runs no action, task or onEveryCycle.", "quantifier": "all applications, whatever they call in their callbacks; all reports of the kernel; select and epoll", "why_tests_cant": "every interleaving of registering, cancelling, closing, stopping and clearing inside actions that were activated together", "anchors": ["src/RunLoop.cpp 16-102", "src/SelectRunLoop.cpp 27-155", "src/EPollRunLoop.cpp 38-209"]}
{"id": "C74", "title": "What is registered is what the kernel watches", "statement": "Every entry of epoll's interest list belongs to a descriptor the loop still has and is for exactly the registered conditions; everything registered is in the list; and one bad descriptor does not end a run of select.", "quantifier": "all applications, all executions", "why_tests_cant": "descriptor numbers used again, in every order of opening, registering, unregistering and closing", "anchors": ["src/EPollRunLoop.cpp 68-118", "src/SelectRunLoop.cpp 97-118"]}
{"id": "C75", "title": "A URI is cut into its parts the only way there is", "statement": "parse gives scheme, authority, user, password, host, port, path, query and fragment such that they make up the text, each within its grammar, and any parts that make up the text within the grammar are the ones found; scheme in lower case, origin and effective port follow from them.", "quantifier": "all texts without line terminators", "why_tests_cant": "greedy and optional groups of four regular expressions, on every text", "anchors": ["src/URIParse.cpp 19-71", "src/URIParse.cpp 234-240"]}
{"id": "C76", "title": "A relative reference resolves as RFC 3986 says", "statement": "transformRelativeReference gives the target of RFC 3986 5.2.2 put together as in 5.3, and the result, taken as a reference, is that target.", "quantifier": "all bases and references without line terminators", "why_tests_cant": "every combination of missing and empty parts with dot segments", "anchors": ["src/URIParse.cpp 73-134"]}
{"id": "C77", "title": "The public URI has no credentials", "statement": "publicUri is the same reference with the same scheme, host, port, path and query, without user, password and fragment.", "quantifier": "all texts without line terminators", "why_tests_cant": "texts in which the delimiters stand in unusual places", "anchors": ["src/URIParse.cpp 40-47", "src/URIParse.cpp 70"]}
{"id": "C78", "title": "The JSON text of an AMF value is that value", "statement": "toJSON gives exactly one JSON text by RFC 8259, which can be read only as the value: members without undefined ones in order, strings with every byte restored, integers with their digits.", "quantifier": "all AMF0 values, all indentations, all texts of numbers that are JSON numbers", "why_tests_cant": "strings of any bytes, values of any shape and depth", "anchors": ["src/AMF.cpp 13-35", "src/AMF.cpp 138-176", "src/AMF.cpp 358-375", "src/AMF.cpp 600-638", "src/AMF.cpp 703-715", "src/AMF.cpp 868-883"]}
{"id": "C79", "title": "The WebSocket server reads and writes RFC 6455 frames, however the bytes are cut", "statement": "onInput takes a frame's opcode, final bit, unmasked payload and length as RFC 6455 5.2 gives them, waits for part of one, refuses one over 16 MB, and reads nothing beyond its buffer; the same bytes in any chunks have the same effect; a frame written is final, unmasked, with the shortest length.", "quantifier": "all bytes, all cuts, all applications", "why_tests_cant": "lengths around every field size in every cut", "anchors": ["test/SimpleWebSocket.cpp 394-536", "test/SimpleWebSocket.cpp 157-192"]}
{"id": "C80", "title": "Messages are delivered whole and in order, and pings answered", "statement": "What the application gets are the client's messages, each the concatenation of its fragments, in order, without loss as long as neither side closes; control frames between fragments do not disturb them; every ping is answered with its payload.", "quantifier": "all sequences of frames, all applications", "why_tests_cant": "interleavings of fragments, control frames and what the application does in callbacks", "anchors": ["test/SimpleWebSocket.cpp 538-640"]}
{"id": "C81", "title": "The connection ends once and as RFC 6455 says", "statement": "The stream is taken down at most once, nothing follows but one notification, and everything RFC 6455 forbids a client ends the connection.", "quantifier": "all bytes in all chunks, all applications", "why_tests_cant": "malformed frames of every kind", "anchors": ["test/SimpleWebSocket.cpp 240-330", "test/SimpleWebSocket.cpp 538-640"]}
{"id": "C82", "title": "The WebSocket opening handshake is RFC 6455's", "statement": "A well-formed HTTP request is read into its request line and fields (names without case, folded lines, outer blanks removed, equal names joined); a request that RFC 6455 4.2.1 allows is answered with 101 and the base64 SHA-1 of its key and the GUID and opens the stream, and no other does.", "quantifier": "all requests, all cuts, all applications, any SHA-1", "why_tests_cant": "names, blanks and folding in every combination", "anchors": ["test/SimpleWebSocket.cpp 33-118", "test/SimpleWebSocket.cpp 270-376", "test/SimpleWebSocket.cpp 640-679"]}
{"id": "C83", "title": "TC messages mean what their builders said, and a stream writes what it was asked to", "statement": "A command, data, audio or video message, in either format, reaches the connection or the stream it is for with its name, time, arguments and content; no message makes the receiver read outside it; a stream writes the commands asked of it once each, in order and only with a stream ID, each call's message in call order on the flow for its type, and nothing after it was deleted.", "quantifier": "all names, values, times, payloads, all byte strings as messages, all sequences of calls, any time at which the stream ID comes, any calls inside onOpen", "why_tests_cant": "every message content and every order of calls around the opening", "anchors": ["src/TCConnection.cpp 133-202", "src/TCConnection.cpp 352-586", "src/TCConnection.cpp 753-890", "src/TCMessage.cpp 11-58"]}
{"id": "C84", "title": "An RTWebSocket flow delivers what was written to it", "statement": "The messages delivered from a flow are those written to it, in order, whole and under the number of their place, without those given up; once everything has arrived and deliveries have run, an open receiver has had all the others; onComplete is called at most once and after them; no message between the two ends is an error; no fragment goes beyond the advertised window; and the two ends never both wait while a message is waiting.", "quantifier": "all messages, all interleavings of writing, abandoning, closing, transmitting in chunks of any size, receiving, delivering, pausing, resizing, rejecting and closing at the receiver (also inside callbacks), and acknowledging; all byte strings as messages", "why_tests_cant": "every interleaving of the two ends with messages in flight in both directions", "anchors": ["test/RTWebSocket.cpp 145-421", "test/RTWebSocket.cpp 432-484", "test/RTWebSocket.cpp 611-903", "test/RTWebSocket.cpp 911-1177"]}
{"id": "C85", "title": "The POSIX adapter keeps interfaces, sockets and tasks apart", "statement": "Every interface has a number and a socket of its own; packets RTMFP gets for an interface were read from its socket, in the order they reached it, without gap or repetition, and all of them once it was reported readable; writePacket answers true exactly if one packet left that interface's socket; close leaves no socket, registration or interface of the adapter, leaves other descriptors alone, and nothing happens afterwards; tasks run in order, each at most once and only while open; onwritable is called until it answers false and at most four times per event.", "quantifier": "all sequences of adding interfaces, sending, asking for notification, performing, closing, arriving datagrams, readable, writable and task events, with any calls nested in the callbacks and any descriptors opened and closed by the application", "why_tests_cant": "calls nested in callbacks in every combination, and the reuse of descriptor numbers", "anchors": ["src/PosixPlatformAdapter.cpp 60-129", "src/PosixPlatformAdapter.cpp 141-235", "src/PosixPlatformAdapter.cpp 237-288", "src/PerformerPosixPlatformAdapter.cpp 18-30"]}
{"id": "C86", "title": "The stream adapter carries bytes in order and ends the connection properly", "statement": "The bytes sent, then those buffered, are those writeBytes took, in order; nothing is sent on a socket that was shut down or closed; the socket is shut down once, after onClientClosed and only when everything taken was sent; the client is given what was read, in order and completely until it closes; onStreamDidClose comes at most once per socket and onShutdownComplete once; no task runs after closing; while bytes wait the adapter is registered for writing; and once both sides have closed the socket is closed.", "quantifier": "all sequences of calls and events, with any calls nested in the callbacks, and any answers of sendto and recvfrom", "why_tests_cant": "partial writes, errors and calls nested in callbacks in every combination", "anchors": ["test/PosixStreamPlatformAdapter.cpp 24-108", "test/PosixStreamPlatformAdapter.cpp 121-167", "test/PosixStreamPlatformAdapter.cpp 171-281"]}
{"id": "C87", "title": "Run loops sleep no longer than they may, and timers fire on time", "statement": "The time given to select or epoll_wait is valid and is what is needed until the first timer (at most 5 s, nothing if a task waits, at least minSleep), up to half a microsecond or one millisecond; a timer fires only if scheduled and neither fired nor cancelled, not before it is due, and at most the callbacks' time, minSleep and the kernel's inexactness after; after each cycle no scheduled timer is due; and run ends with the first wake at or after its runInterval.", "quantifier": "all schedules of timers, tasks, cancelling, clearing and stopping in any callback, all times the callbacks take, all times the kernel returns, both run loops", "why_tests_cant": "depends on the exact times and on rounding; lateness adds up over cycles", "anchors": ["src/SelectRunLoop.cpp 69-134", "src/EPollRunLoop.cpp 120-186", "src/RunLoop.cpp 28-102", "src/Timer.cpp 186-247"]}
{"id": "C88", "title": "Handshake and closing packets are sent again at the intended pace, and end", "statement": "IHello number n to an address, and IIKeying number n of a start, is sent no earlier than 1 s + 2.5 s + 4 s + ... (n summands) after it was first due, and while the session waits the next is due at most that gap after the one before; with timers less than 16 s late there are at most 12 of each while opening; a session closing in order sends at most 18 Close chunks, 5 s apart, within 90 s; redirects bring the addresses tried to no more than 24; an address is tried once, nothing is sent when it is no longer time for it, nothing happens after the session ends; and opening, closing and lingering end after 95, 95 and 19 s, plus what timers are late.", "quantifier": "all sequences of calls, answers and firing timers, all times passing between, all delays, any clock resolution", "why_tests_cant": "needs minutes of time and late timers in combination with every order of events", "anchors": ["src/Session.cpp 412-428, 484-488, 533-541, 558-585, 756-788, 817-843", "src/Timer.cpp 119-151", "include/rtmfp/params.hpp 17, 20, 22-25, 62-64"]}
{"id": "C89", "title": "The OpenSSL contexts agree on secrets, check public keys and compute CBC and HMAC", "statement": "Two Diffie-Hellman contexts with the same group that accept each other's public key compute the same secret, the generator to both exponents; the groups are 16, 14 and 2 with the moduli of RFC 3526 and RFC 7296 and exponents of 480, 320 and 224 bits; public keys have no leading zeros and are no longer than the modulus; a public key is accepted exactly if it is from 2^24 to the modulus less 2^24 and has at least 16 ones and 16 zeros after the first one, leading zero bytes making no difference; an AES context en- and decrypts whole blocks as CBC does whatever it did before, and refuses anything else; an HMAC context computes the HMAC of each message whatever it computed before; and these contexts satisfy what C32-C34 ask of the cryptographic functions.", "quantifier": "all random numbers, public keys, keys, IVs, messages, sequences of calls, block ciphers", "why_tests_cant": "public keys near the limits and with few zeros are not met by chance; tests use each context a few times", "anchors": ["src/FlashCryptoAdapter_OpenSSL.cpp 30-125, 127-237, 240-285, 288-430, 442-448"]}
