{"id": "C01", "title": "A session never sends two packets with the same nonce", "statement": "Within one session every packet that is encrypted and handed to the network carries a nonce different from the nonce of every other packet of that session, and the nonce counter never wraps: a session stops being usable before the 48-bit counter can overflow.", "quantifier": "all sessions (both roles), all sequences of send attempts at all times, of any length", "why_tests_cant": "Exhausting a 48-bit counter needs 2^47 packets; tests only see the first few nonces and never the top of the range.", "anchors": ["src/methods/common.h: fastd_method_increment_nonce, fastd_method_session_common_is_valid, fastd_method_put_common_header", "src/methods/common.c: fastd_method_common_init"]}
{"id": "C02", "title": "The two ends of a session never use the same nonce", "statement": "Both ends derive the same key for both directions; no nonce sent by the initiator is ever equal to a nonce sent by the responder of that session.", "quantifier": "all pairs of send histories of the two ends of a session, of any length", "why_tests_cant": "Requires comparing every element of two unbounded histories, including after long carry chains in the big-endian counter.", "anchors": ["src/methods/common.c: fastd_method_common_init", "src/methods/common.h: fastd_method_increment_nonce", "doc/source/devel/protocol.rst"]}
{"id": "C03", "title": "Distinct packets never share a cipher IV or a CTR block", "statement": "The per-packet IV built from the 6-byte nonce is an injective function of the nonce for every IV size the ciphers use, it is different from the all-zero IV used to derive MAC keys at session start, and for AES-CTR the counter blocks consumed by two different packets of a session (and by key derivation) are disjoint.", "quantifier": "all pairs of nonces, all IV lengths >= 7, all packet lengths up to 2^32 blocks", "why_tests_cant": "IV and counter collisions show up only for specific nonce pairs among 2^96.", "anchors": ["src/methods/common.h: fastd_method_expand_nonce", "src/crypto/cipher/aes128_ctr/openssl/aes128_ctr_openssl.c", "src/methods/generic_gmac/generic_gmac.c: method_session_init"]}
{"id": "C04", "title": "Replayed packets are delivered at most once", "statement": "However the network duplicates, delays and reorders the packets of a session, the payload of a packet sent by the peer is delivered to the upper layer at most once, as long as the node's own packets are not sent back to it. (With reflected packets this is false, because these can be accepted and move the replay window: a packet can then be delivered again; but in every history of arbitrary packets no nonce is accepted more than 129 times.)", "quantifier": "all receive histories of any length at any times, all interleavings of duplicates", "why_tests_cant": "The receive window is a sliding 64-bit bitmap with 48-bit arithmetic and a timeout; only particular orders at particular distances expose an off-by-one.", "anchors": ["src/methods/common.c: fastd_method_is_nonce_valid, fastd_method_reorder_check"]}
{"id": "C05", "title": "Packets inside the reorder window are not lost", "statement": "A packet of the peer that has not been seen yet and is newer than the newest packet, or at most 64 packets older than it while the newest one arrived less than 10 seconds ago, is accepted; it is reported as reordered exactly if it is not the newest so far. Anything older than that, or arriving after that time, is rejected.", "quantifier": "all receive histories and all candidate nonces of the peer whose most significant byte has the parity the check expects", "why_tests_cant": "Exact acceptance needs to be compared with a history-based specification for every history, not for chosen sequences.", "anchors": ["src/methods/common.c: fastd_method_is_nonce_valid, fastd_method_reorder_check"]}
{"id": "C06", "title": "A packet reflected to its sender is rejected", "statement": "A packet produced by one end of a session is never accepted by that same end when the network sends it back, and does not disturb the replay window. (False: the direction bit is compared in the most significant byte of the nonce instead of the least significant one. A reflected packet is accepted as new exactly when the most significant byte of its nonce has the parity of that of the receive nonce and the nonce is greater than the receive nonce.)", "quantifier": "all session states and all packets previously sent by the same end", "why_tests_cant": "Tests do not play the attacker who reflects ciphertexts; whether the direction bit is looked at in the right byte matters for every nonce value.", "anchors": ["src/methods/common.c: fastd_method_is_nonce_valid", "src/methods/common.h: fastd_method_increment_nonce"]}
{"id": "C07", "title": "Sessions expire and superseded sessions die within a minute", "statement": "A session is never used for sending or receiving one hour or more after it was established, unless its method is a null method (sessions of null methods never expire by themselves, witness); after a new session was negotiated the previous one is never used for more than 60 further seconds; neither of these times is ever extended by later traffic or handshakes.", "quantifier": "all sequences of events (send, receive, supersede, refresh) at non-decreasing times", "why_tests_cant": "Lifetimes depend on wall-clock schedules over hours and on the order of several min/max updates.", "anchors": ["src/methods/common.h: fastd_method_session_common_is_valid, _superseded, _want_refresh", "src/methods/common.c: fastd_method_common_init", "src/protocols/ec25519_fhmqvc/handshake.c: supersede_session"]}
{"id": "C08", "title": "Payload encryption round-trips for every method", "statement": "For every data method (null, null@l2tp, cipher-test, generic-gmac, generic-umac, composed-gmac, composed-umac, generic-poly1305), what one end encrypts decrypts at the other end to exactly the same payload, of any length including empty, for every cipher and MAC implementation whose stream cipher and MAC are deterministic functions of key, IV and data.", "quantifier": "all payloads of every length, all nonces accepted by the receiver, all keys, all stream ciphers and MACs", "why_tests_cant": "Padding, header and tag placement differ for each length modulo 16 and for each method; unit tests use a few lengths.", "anchors": ["src/methods/*/*.c: method_encrypt, method_decrypt", "src/buffer.h"]}
{"id": "C09", "title": "No payload is delivered unless its authentication tag verifies", "statement": "An authenticated method hands a payload to the upper layer only if the packet is long enough, has the right type and flags, a nonce acceptable for the session, and the tag in the packet equals the tag computed with the session key over the whole ciphertext and its length.", "quantifier": "all byte strings received as a packet, all session states", "why_tests_cant": "It is a statement about all forged inputs.", "anchors": ["src/methods/generic_gmac/generic_gmac.c: method_decrypt", "src/methods/composed_gmac/composed_gmac.c", "src/methods/generic_umac/generic_umac.c", "src/methods/composed_umac/composed_umac.c", "src/methods/generic_poly1305/generic_poly1305.c"]}
{"id": "C10", "title": "A rejected packet leaves the session untouched", "statement": "If a data packet is rejected (too short, wrong type, replay, bad tag) the session state is unchanged, the packet's bytes are as they were on arrival so that it can be tried with the peer's other session, and no buffer is leaked.", "quantifier": "all byte strings, all session states, all methods", "why_tests_cant": "Needs all failing inputs on all failing paths.", "anchors": ["src/methods/*/*.c: method_decrypt", "src/protocols/ec25519_fhmqvc/ec25519_fhmqvc.c: protocol_handle_recv"]}
{"id": "C11", "title": "The MAC covers content and length unambiguously", "statement": "Two different messages (differing in any byte or in length) never give the MAC the same sequence of input blocks, so padding cannot be used to modify or extend a packet.", "quantifier": "all pairs of messages of any length (below 2^29 bytes for the 32-bit bit counter)", "why_tests_cant": "An injectivity claim over all pairs of byte strings.", "anchors": ["src/crypto/mac/ghash/builtin/ghash_builtin.c: ghash_digest", "src/crypto/mac/uhash/builtin/uhash_builtin.c: uhash_digest", "src/buffer.h: fastd_buffer_zero_pad"]}
{"id": "C12", "title": "Packet growth is exactly the advertised overhead", "statement": "Every packet produced for a payload of n bytes is exactly n plus the overhead the method advertises (24, 8 or 1 bytes; the L2TP keepalive is a 20-byte control-prefixed packet), and fits the receive buffer of a peer with the same configuration; the payload of a received packet never exceeds the packet length.", "quantifier": "all methods, all payload lengths", "why_tests_cant": "All lengths, all methods.", "anchors": ["src/methods/*/*.c: overhead, method_encrypt", "src/receive.c: fastd_receive", "src/config.c: configure_method_parameters"]}
{"id": "C13", "title": "SHA-256 agrees with FIPS 180-4 for every input", "statement": "The SHA-256 used for handshakes computes the FIPS 180-4 hash (padding, message schedule and compression written independently from the standard) of the concatenation of its inputs.", "quantifier": "all lists of word-aligned inputs of any length (message length below 2^29 bytes)", "why_tests_cant": "Test vectors cover a few lengths; padding has a special case depending on the length modulo 64.", "anchors": ["src/sha256.c: sha256_list, fastd_sha256_blocks, copy_words"]}
{"id": "C14", "title": "HMAC-SHA256 and HKDF agree with RFC 2104 / RFC 5869", "statement": "The HMAC used for handshake authentication and the HKDF expansion used for session keys equal the RFC definitions for every key, message and requested number of output blocks.", "quantifier": "all 32-byte keys, all messages, all output lengths up to 255 blocks", "why_tests_cant": "Composition of several buffers and a counter; vectors cover one or two shapes.", "anchors": ["src/sha256.c: hmacsha256, fastd_hmacsha256", "src/hkdf_sha256.c: fastd_hkdf_sha256_expand"]}
{"id": "C15", "title": "The table-driven GHASH is multiplication in GF(2^128)", "statement": "The table-driven GHASH computes, for every key and message, the polynomial evaluation over GF(2^128) specified in NIST SP 800-38D, with the length block the code documents.", "quantifier": "all 128-bit keys, all messages of any length", "why_tests_cant": "2^128 keys; a single wrong table entry or shift affects only some of them.", "anchors": ["src/crypto/mac/ghash/builtin/ghash_builtin.c"]}
{"id": "C16", "title": "The carry-less-multiply GHASH equals the table-driven GHASH", "statement": "The PCLMULQDQ implementation and the portable implementation of GHASH return the same tag for every key and message, so peers choosing different implementations interoperate.", "quantifier": "all keys, all messages", "why_tests_cant": "Equality of two functions on 2^128 keys and unbounded messages.", "anchors": ["src/crypto/mac/ghash/pclmulqdq/ghash_pclmulqdq_impl.c", "src/crypto/mac/ghash/builtin/ghash_builtin.c"]}
{"id": "C17", "title": "UHASH follows RFC 4418", "statement": "The UHASH implementation computes the RFC 4418 UHASH-128 value (L1, L2 with polynomial restart, L3) for every key material and message length.", "quantifier": "all key material, all messages", "why_tests_cant": "Branches in the polynomial layer are taken only for rare 64-bit values.", "anchors": ["src/crypto/mac/uhash/builtin/uhash_builtin.c"]}
{"id": "C18", "title": "Constant-time comparison is equality", "statement": "The branch-free comparisons used for authentication tags and keys return true exactly when the compared byte strings are equal.", "quantifier": "all pairs of 16-byte and 32-byte values", "why_tests_cant": "2^256 pairs.", "anchors": ["src/crypto.h: secure_memequal, block_equal", "src/sha256.c: fastd_hmacsha256_verify"]}
{"id": "C19", "title": "Handshake TLV records round-trip", "statement": "A handshake packet assembled from any list of records is parsed by the receiver into exactly these records (the last one winning for repeated types), integers come back with their value for every width 1 to 4, and the length field equals the number of record bytes.", "quantifier": "all record lists that fit the packet size limit, all 32-bit integer values", "why_tests_cant": "All record lists and integer widths.", "anchors": ["src/handshake.h: fastd_handshake_extend, fastd_handshake_add*", "src/handshake.c: parse_tlvs, as_uint*"]}
{"id": "C20", "title": "Handshake parsing never reads outside the packet", "statement": "Every received datagram is dispatched by the first byte of the packet it carries, directly or behind a complete control header, and only if there is such a byte. For every received byte string the parser either rejects it or yields records each of which lies completely inside the received data; no byte outside the packet is read and parsing terminates.", "quantifier": "all byte strings, with or without a control header", "why_tests_cant": "All malformed inputs.", "anchors": ["src/handshake.c: parse_tlvs, fastd_handshake_handle"]}
{"id": "C21", "title": "Handshake packets always fit", "statement": "A handshake packet, with its optional control header, written by the node never exceeds the buffer space reserved for it, and nodes either send at most 1232 bytes or stop with an explicit error because of the configured method list.", "quantifier": "all method lists, version strings, MTU values and message types", "why_tests_cant": "Depends on configured names and on every record actually added on every path.", "anchors": ["src/handshake.c: new_handshake, fastd_handshake_send_free", "src/protocols/ec25519_fhmqvc/handshake.c: respond_handshake, finish_handshake, handshake_init"]}
{"id": "C22", "title": "Error replies are never answered", "statement": "Two nodes can never exchange an endless sequence of handshake error packets: whatever a node receives in reply to anything, an error reply never causes any further packet to be sent.", "quantifier": "all packets that provoke an error reply, all configurations of the two nodes", "why_tests_cant": "Absence of an infinite exchange between all pairs of configurations and all provoking packets.", "anchors": ["src/handshake.c: fastd_handshake_send_error, check_records, fastd_handshake_handle", "src/protocols/ec25519_fhmqvc/handshake.c: fastd_protocol_ec25519_fhmqvc_handshake_handle"]}
{"id": "C23", "title": "Old and new style initial handshakes are answered once", "statement": "Nodes that understand the L2TP-compatible format send the initial handshake twice, plain and with a control header; another such node processes exactly one of the two copies, the other one is in the plain format that older nodes read; replies are sent exactly once, with a control header if and only if the received flags ask for it.", "quantifier": "all initial handshake packets and flag values", "why_tests_cant": "Interaction of two versions and a flag record for all packets.", "anchors": ["src/handshake.c: fastd_handshake_send_free, fastd_handshake_handle", "src/receive.c: handle_socket_receive"]}
{"id": "C24", "title": "Both ends agree on the method and it is one both configured", "statement": "When a handshake completes both ends use the same method, this method is in the configured list of both ends, and it is the method that the responder's list ranks first (by the documented preference) among the common ones.", "quantifier": "all pairs of method lists", "why_tests_cant": "All pairs of preference lists, including repeated and prefix-related names.", "anchors": ["src/handshake.c: create_method_list, parse_string_list, fastd_handshake_get_method_by_name_list, fastd_handshake_get_method_by_name", "src/config.c: fastd_config_method"]}
{"id": "C25", "title": "The authenticated key exchange agrees on both sides", "statement": "The initiator and responder computations of the FHMQV exchange give the same shared secret, hence the same handshake MAC key and session key, for every static and ephemeral key pair; the derived session key depends on both static keys, both ephemeral keys and the method name in the same order on both sides.", "quantifier": "all key pairs in any cyclic group of the curve's order, all hash functions", "why_tests_cant": "Algebraic identity over all scalars; the two sides use different formulas.", "anchors": ["src/protocols/ec25519_fhmqvc/handshake.c: make_shared_handshake_key, derive_key, new_session, finish_handshake, handle_finish_handshake"]}
{"id": "C26", "title": "A session is only established after the peer proved knowledge of its key", "statement": "No sequence of received packets makes a node establish a session with a peer unless one of these packets carries a valid message authentication code under the handshake key shared with this peer's configured public key and a currently valid ephemeral key.", "quantifier": "all packet sequences, all peer configurations, all times", "why_tests_cant": "All adversarial sequences.", "anchors": ["src/protocols/ec25519_fhmqvc/handshake.c: fastd_protocol_ec25519_fhmqvc_handshake_handle, finish_handshake, handle_finish_handshake, establish"]}
{"id": "C27", "title": "An ephemeral key is used for at most one session per peer", "statement": "For one configured peer, two sessions are never derived from the same local ephemeral handshake key, so replaying recorded handshake packets can never recreate an earlier session key; a handshake key is never accepted more than 30 seconds after its creation.", "quantifier": "all histories of handshakes, maintenance ticks, resets and reloads", "why_tests_cant": "Replays at arbitrary later times after arbitrary histories.", "anchors": ["src/protocols/ec25519_fhmqvc/state.c", "src/protocols/ec25519_fhmqvc/handshake.c: establish, fastd_protocol_ec25519_fhmqvc_handshake_handle, add_dynamic"]}
{"id": "C28", "title": "Handshake responses are rate limited", "statement": "After a session with a peer was established, no initial handshake from it is answered and no further session is established for 15 seconds while it stays connected, whatever is received. Only the last answered address is remembered: while packets come from one address only, responses sent to a connected configured peer at that address are at least 15 seconds apart; with packets from two addresses in turn, the same address can be answered again at once.", "quantifier": "all packet sequences at all non-decreasing times", "why_tests_cant": "Needs all arrival patterns.", "anchors": ["src/protocols/ec25519_fhmqvc/handshake.c: fastd_protocol_ec25519_fhmqvc_handshake_handle, establish"]}
{"id": "C29", "title": "Unknown senders cannot be flooded with handshakes", "statement": "While the record of a handshake sent to an unknown address is kept, payload packets from that address trigger no further handshake; a record is kept for the remaining slots of the 15 second period after it was made unless evicted because all its candidate slots are occupied; slots are never occupied by records of an earlier cycle.", "quantifier": "all sequences of unknown packets, all hash seeds, all non-decreasing times", "why_tests_cant": "A time-sliced, hashed, multi-table structure; collisions and boundary times are rare.", "anchors": ["src/receive.c: unknown_hash_entry, backoff_unknown"]}
{"id": "C30", "title": "An address belongs to at most one peer", "statement": "At any time no two enabled peers have the same remote address and local socket owner; a packet from an address is attributed to the peer holding this address and to no other.", "quantifier": "all histories of handshakes, resolves, resets, additions and deletions", "why_tests_cant": "Races between peers for addresses over histories.", "anchors": ["src/peer.c: fastd_peer_claim_address, reset_peer_address", "src/peer_hashtable.c"]}
{"id": "C31", "title": "The peer address table agrees with the peer list", "statement": "Looking up a remote address in the hash table returns the peer whose current address it is, and nothing otherwise, after any sequence of insertions, removals and table growth, for any hash seed.", "quantifier": "all operation sequences, all hash functions", "why_tests_cant": "Resizing re-inserts all peers with a new seed; bucket removal by swap.", "anchors": ["src/peer_hashtable.c: fastd_peer_hashtable_insert, _remove, _lookup, resize_hashtable"]}
{"id": "C32", "title": "Connection limits are never exceeded", "statement": "The number of established peers in a peer group and its subgroups never exceeds the group's configured limit.", "quantifier": "all group trees, limits and event histories", "why_tests_cant": "All trees and schedules of concurrent handshakes.", "anchors": ["src/peer.c: fastd_peer_may_connect, count_established_peers, fastd_peer_set_established", "src/protocols/ec25519_fhmqvc/handshake.c"]}
{"id": "C33", "title": "Frames go to the peer that last used the destination address", "statement": "In TAP mode a unicast frame whose destination was the source of a frame received less than 5 minutes ago (and whose peer has been established since) is sent only to the peer it was received from last; frames to addresses that were never used, or that the maintenance task has found unused for 5 minutes, and multicast frames are sent to every established peer except the one they came from, exactly once each; a frame to an address used by this node itself is sent to nobody; a frame is never sent back to its source.", "quantifier": "all histories of learned addresses, peer resets and cleanups, all frames", "why_tests_cant": "Sorted-array binary search with insertion, removal and ageing over histories.", "anchors": ["src/peer.c: fastd_peer_eth_addr_add, fastd_peer_find_by_eth_addr, fastd_peer_eth_addr_cleanup, reset_peer", "src/send.c: send_data_tap_single, send_all", "src/receive.c: fastd_handle_receive"]}
{"id": "C34", "title": "Peer ids are unique and never reused", "statement": "Every peer ever added gets an id different from all other peers past and present, peers are kept sorted by id, and looking up an id returns that very peer or nothing after it was deleted, so a late asynchronous result is never delivered to a different peer.", "quantifier": "all histories of additions, deletions and reloads", "why_tests_cant": "Late completions after arbitrary reload histories.", "anchors": ["src/peer.c: fastd_peer_add, fastd_peer_find_by_id, delete_peer", "src/async.c"]}
{"id": "C35", "title": "Reload computes the configured set and keeps unchanged peers", "statement": "After a reload the enabled configured peers are exactly those whose key is defined exactly once and is not the node's own key; a peer whose definition did not change keeps its id and its running session, a removed or changed one is dropped; peers added dynamically are kept unless a definition for their key appeared.", "quantifier": "all previous states, all new directory contents and orders", "why_tests_cant": "All pairs of old and new configurations.", "anchors": ["src/config.c: fastd_config_load_peer_dirs, fastd_configure_peers", "src/peer.c: fastd_peer_add, peer_configs_equal"]}
{"id": "C36", "title": "A reload applies every changed peer option but the MTU", "statement": "After a reload the group, remotes, float option and interface of each enabled configured peer are those of its definition. The MTU is that of the definition if the peer is new or another option changed as well; a reload that only changes the MTU of a peer leaves the old value in effect (shown by an execution).", "quantifier": "all pairs of old and new peer definitions", "why_tests_cant": "Every pair of definitions.", "anchors": ["src/peer.c: peer_configs_equal, fastd_peer_add", "src/peer.h: fastd_peer_get_mtu"]}
{"id": "C37", "title": "Maintenance of a peer never touches a missing remote", "statement": "The periodic task of a peer never accesses a remote that does not exist if the peer has a remote, is connected or is not due for a handshake. This does not hold for a peer without remotes whose reply could not be sent from the local address it was received on: its next handshake is scheduled and uses the first entry of an empty list.", "quantifier": "all peer configurations (including peers without remotes) and all reachable states", "why_tests_cant": "Needs a specific network error while answering a peer without a configured remote.", "anchors": ["src/peer.c: handle_task_handshake, send_handshake", "src/send.c: fastd_send", "src/peer.h: fastd_peer_get_next_remote"]}
{"id": "C38", "title": "Silent peers are dropped and live peers are kept alive", "statement": "An established configured peer from which nothing was received for 90 seconds is disconnected by the next run of its task, never earlier (a dynamic peer is not, because each verification of its handshakes extends the time; witness); as long as tasks run in time an established peer of any kind is sent at least one packet in every 20 seconds.", "quantifier": "all histories of receive and send events and task runs", "why_tests_cant": "Timers are rescheduled lazily; needs all event interleavings.", "anchors": ["src/peer.c: fastd_peer_handle_task, schedule_peer_task, setup_peer", "src/peer.h: fastd_peer_seen, fastd_peer_clear_keepalive"]}
{"id": "C39", "title": "The timer queue runs every task exactly once, in order, in time", "statement": "The timer queue always holds exactly the scheduled tasks; running it executes exactly the tasks whose time has come, in order of their times, each once per scheduling; removing or rescheduling any task at any moment (also from inside a running task) never loses another one and never leaves dangling links.", "quantifier": "all sequences of schedule, reschedule, unschedule and run operations, any number of tasks", "why_tests_cant": "Pointer-level pairing heap with back links; the failing shapes need specific sequences.", "anchors": ["src/pqueue.c: merge, merge_pairs, fastd_pqueue_insert, fastd_pqueue_remove", "src/pqueue.h", "src/task.c: fastd_task_handle, fastd_task_schedule, fastd_task_unschedule"]}
{"id": "C40", "title": "Verification processes are bounded and slots are never leaked", "statement": "At most 32 verification commands run at the same time, each started one returns its slot exactly once, so verification never stops working permanently.", "quantifier": "all sequences of verification starts, completions and failures", "why_tests_cant": "Leaks need specific failure interleavings.", "anchors": ["src/verify.c", "src/sem.h"]}
{"id": "C41", "title": "Dynamic peers get a session only after positive verification", "statement": "A peer that is not configured statically becomes connected only if the latest verification result for this peer and key was positive and not longer than 60 seconds before its session was established. (The address is not part of this: a session can be established with an address for which no verification was ever done; witness.)", "quantifier": "all interleavings of handshakes, verification results and timeouts", "why_tests_cant": "Asynchronous results at arbitrary times.", "anchors": ["src/protocols/ec25519_fhmqvc/handshake.c: add_dynamic, handle_dynamic, fastd_protocol_ec25519_fhmqvc_handle_verify_return", "src/peer.h: fastd_peer_set_verified"]}
{"id": "C42", "title": "Three packet buffers always suffice and none leaks", "statement": "No processing of one event needs more than the three preallocated buffers, and after the event all of them are free again.", "quantifier": "all events, all modes, all numbers of peers, all success and failure paths", "why_tests_cant": "Needs all nested paths (receive, decrypt, forward, keepalive, handshake) with failures.", "anchors": ["src/buffer.c", "src/send.c", "src/receive.c", "src/protocols/ec25519_fhmqvc/*.c", "src/methods/*/*.c"]}
{"id": "C43", "title": "Buffers are always large enough", "statement": "Receiving a datagram stops the daemon exactly for the configurations whose buffers are smaller than the decryption headroom and a maximal handshake together (some accepted MTUs are so; witness), whatever the datagram is. In all other configurations no packet received, read from the interface or sent as keepalive makes a buffer request larger than the preallocated buffers, and so does no forwarded frame of at most the maximal payload length. (A longer frame received with a method of less overhead stops the daemon when it is forwarded; witness.)", "quantifier": "all MTUs, method sets and packet lengths", "why_tests_cant": "Depends on alignments and maxima over the configured methods and MTUs.", "anchors": ["src/config.c: fastd_configure_peers, configure_method_parameters", "src/buffer.c: fastd_buffer_alloc, fastd_init_buffers", "src/receive.c: fastd_receive"]}
{"id": "C44", "title": "The buffer pool stays valid across reloads", "statement": "A peer added by reloading the peer directories never makes packet processing use more memory than the preallocated buffers have, in TAP mode always and in TUN mode as long as the peer does not raise the maximal MTU. (In TUN mode a peer with a larger MTU leads to a write behind the end of a buffer; witness.)", "quantifier": "all configurations and reloads", "why_tests_cant": "Needs a reload introducing a larger per-peer MTU.", "anchors": ["src/fastd.c: init", "src/buffer.c: fastd_init_buffers", "src/config.c: fastd_configure_peers, fastd_config_load_peer_dirs"]}
{"id": "C45", "title": "Headroom always suffices and block accesses are aligned", "statement": "On the whole send, receive and forward path a header is never pushed in front of the start of the buffer, and every block operation of a cipher or MAC starts at a 16-byte aligned address and stays inside the buffer, except for data packets received behind a control header (these are misaligned; witness).", "quantifier": "all method sets, all packet lengths, all paths, packets with and without control header", "why_tests_cant": "Alignment faults appear only for some method/header combinations and CPU instructions.", "anchors": ["src/buffer.h: fastd_buffer_push, fastd_buffer_align", "src/config.c: configure_method_parameters", "src/methods/*/*.c", "src/receive.c: handle_socket_receive"]}
{"id": "C46", "title": "The configuration lexer is independent of read chunking", "statement": "The token sequence produced for a configuration file (with values and locations) depends only on its contents, not on how reads split it; a file in the lexical grammar gives its tokens, and every malformed, unterminated or unreadable input ends in an error, provided that no run of letters and digits fills the 1024 byte buffer of the lexer (a number of that length silently ends the file).", "quantifier": "all file contents, all chunkings of reads", "why_tests_cant": "All splits of all inputs.", "anchors": ["src/lex.c"]}
{"id": "C47", "title": "Peer address normalisation is consistent", "statement": "Converting IPv4 addresses to and from their IPv4-mapped IPv6 form is lossless, normalised addresses are equal exactly if they denote the same endpoint, and equal addresses always have the same hash.", "quantifier": "all socket addresses", "why_tests_cant": "2^128 addresses with scope ids; equality ignores different fields for different scopes.", "anchors": ["src/peer.c: fastd_peer_address_equal, fastd_peer_address_simplify, fastd_peer_address_widen", "src/peer_hashtable.h / hash.h: fastd_peer_address_hash"]}
{"id": "C48", "title": "A statically configured address cannot be taken over", "statement": "An address that is configured as the static, non-floating remote address of one peer is never used by another peer, in every execution without reloads; no event but a reload breaks this, and a reload only does for addresses that another peer is using at that moment. Such a peer goes on using the address and data is sent to it there (shown by an execution).", "quantifier": "all configurations and event histories including reloads", "why_tests_cant": "Needs particular peer orders and histories.", "anchors": ["src/peer.c: fastd_peer_claim_address, fastd_peer_owns_address"]}
{"id": "C49", "title": "Polling with poll or select never touches a closed descriptor's object; with epoll it can", "statement": "With the poll and select back ends, if handling one ready descriptor closes other sockets or interfaces, the remaining ready descriptors of the same round are never dispatched to freed objects; every report goes to the object that was registered for the descriptor when the kernel was asked, the kernel is asked about exactly the registered descriptors, and without changes everything reported is dispatched in the same round; handlers run exactly for the objects reported as readable. With epoll this holds only as long as handlers close no other object than their own: otherwise a later event of the same batch is dispatched to a freed object, or to a new object that took its place.", "quantifier": "all executions: all batches of ready descriptors, all effects of their handlers, all numbers of rounds", "why_tests_cant": "Needs particular event orders inside one poll batch.", "anchors": ["src/polling.c: fastd_poll_handle (epoll and poll variants), fastd_poll_fd_close"]}
{"id": "C50", "title": "Truncated log and interface names stay terminated and bounded", "statement": "The bounded string formatter never writes outside the destination; a result that fits is stored completely, terminated, and its exact length is returned; a longer one is cut off. Log messages and interface names are always terminated, and are the text cut off at the size. (The formatter alone does not terminate a text whose literal characters fill the destination, and its result can be up to two larger than the size when an unspecified address is cut off; witnesses.)", "quantifier": "all format results and buffer sizes", "why_tests_cant": "All sizes and contents.", "anchors": ["src/log.c: snprintf_safe, fastd_vsnprintf", "src/iface.c: iface name format"]}
{"id": "C51", "title": "Hashing reads only the pointers it was given", "statement": "The SHA-256 routine never reads entries of its array of input pointers behind the end of that array. (False: up to two entries behind the end are read, though never dereferenced; none are read exactly when the length modulo 64 is between 33 and 55.)", "quantifier": "all input lengths", "why_tests_cant": "The value read is never used, so every test passes; only memory checkers on all lengths could see it.", "anchors": ["src/sha256.c: sha256_list, fastd_sha256, hmacsha256_list"]}
{"id": "C52", "title": "Verification does not leak memory", "statement": "Every environment allocated for a verification is freed once the verification has ended or was refused. (False: the environment of a verification refused because of the limit of 32 is never freed, so memory grows with every refused verification; all others are freed.)", "quantifier": "all sequences of verification starts, completions and failures in all interleavings of the threads", "why_tests_cant": "The leak needs 32 commands running at once and is only visible as slow memory growth.", "anchors": ["src/verify.c: fastd_verify_peer, do_verify_thread", "src/shell.c"]}
{"id": "C53", "title": "No input makes the program abort or touch freed objects", "statement": "Whatever packets, frames, timers, resolver and verification results and reloads arrive in whatever order, the program neither calls exit_bug nor accesses an object that does not exist or was freed, except in two situations: the timer of a peer without remotes and without a session is due for a handshake (see C37), or a handshake arrives on the socket opened for one peer and names another peer as its sender. In particular nothing crashes if on-verify is not used, every peer has a remote and all sockets are bound by configuration. In the second situation the program calls exit_bug or uses a closed socket.", "quantifier": "all configurations, all interleavings of events, all packet contents, all failures of system calls", "why_tests_cant": "A crash needs a rare combination of reload, eviction, timer and packet order; tests cover a few orders, the theorem covers all.", "anchors": ["src/peer.c: fastd_peer_claim_address, fastd_peer_handle_task, free_socket", "src/receive.c: fastd_receive", "src/send.c: fastd_send", "src/protocols/ec25519_fhmqvc/handshake.c: match_sender_key, establish", "src/protocols/ec25519_fhmqvc/ec25519_fhmqvc.c: protocol_send"]}
{"id": "C54", "title": "A method name selects exactly the documented algorithms", "statement": "Whatever methods, ciphers and MACs were compiled in or are available, and in whatever order the providers are asked, a method name is accepted exactly if the documentation gives it a meaning and everything it needs is available, and the method then uses exactly the named ciphers and MAC; no name has two meanings and no method two names. After the configuration check every name used in any peer group is found. The methods of a group are preferred in the order in which the file first names them. For the empty name, which the configuration accepts, a local array of size zero is declared, which is undefined.", "quantifier": "all names, all builds, all provider orders, all trees of peer groups", "why_tests_cant": "Names are arbitrary strings and builds differ; two peers running different builds must agree on what a name means.", "anchors": ["src/methods/*: method_create_by_name", "src/methods/methods.c.in: fastd_method_create_by_name", "src/config.c: collect_methods, configure_methods, fastd_config_check"]}
{"id": "C55", "title": "Vectors behave as lists", "statement": "Whatever sequence of insertions, additions, deletions, assignments and resizes is applied to a new vector, if every position exists and no size passed to VECTOR_RESIZE reaches 2^64/3, then no memory outside the allocation is accessed, the length is that of the list given by the same operations, and reading an element returns what was last stored in it. The allocation is nothing or a power of two, and at most three times the largest length so far. The process exits only if realloc fails or the vector has more than 2^32/3 elements. For larger sizes it is false: resizing a new vector to 2^64/3+1 elements allocates four.", "quantifier": "all element types and sizes, all sequences of operations, all failures of realloc", "why_tests_cant": "The boundary cases are in the growth arithmetic and the overlapping moves; any sequence of operations may reach them.", "anchors": ["src/vector.c: _fastd_vector_resize, _fastd_vector_insert, _fastd_vector_delete", "src/vector.h: VECTOR_ADD, VECTOR_INDEX", "src/alloc.h: fastd_mul_check, fastd_realloc_array"]}
{"id": "C56", "title": "Keys are read and printed in hexadecimal without loss", "statement": "A text is accepted as a secret or public key exactly if it consists of 64 hexadecimal digits of either case, and the key is then the 32 bytes it spells; no byte is left uninitialised. Different texts give the same key only if they differ in case. Printing a key fills the 65 byte buffer exactly, in lower case, and what --generate-key and --show-key print is read back as the same key. A peer without a name is described by the beginning of its key for every buffer size.", "quantifier": "all strings, all keys, all buffer sizes", "why_tests_cant": "Truncation, sign and case handling in sscanf and snprintf depend on the value of every digit; 2^256 keys cannot be tried.", "anchors": ["src/protocols/ec25519_fhmqvc/ec25519_fhmqvc.c: read_key", "src/protocols/ec25519_fhmqvc/ec25519_fhmqvc.h: hexdump", "src/protocols/ec25519_fhmqvc/util.c: print_hexdump, fastd_protocol_ec25519_fhmqvc_describe_peer"]}
{"id": "C57", "title": "Shell commands see exactly the variables of their event", "statement": "Every command runs with fastd's process ID in FASTD_PID, without NOTIFY_SOCKET, and with each variable that belongs to the kind of command set to the value of the event or unset, never inherited from fastd's own environment; all other variables are inherited unchanged. Commands about a peer have INTERFACE, INTERFACE_MTU, LOCAL_KEY, LOCAL_ADDRESS, LOCAL_PORT, PEER_ADDRESS, PEER_PORT, PEER_NAME and PEER_KEY; up and down of the shared interface have INTERFACE and INTERFACE_MTU. No buffer used for this overflows, including link-local addresses with interface names of any length. The command used is that of the nearest enclosing group which sets it. That all commands have INTERFACE, INTERFACE_MTU and LOCAL_KEY, as the manual says, is false: pre-up, up, down and post-down inherit LOCAL_KEY from fastd's environment, and connect for an unknown peer has no INTERFACE.", "quantifier": "all commands, peers, addresses, interface names, inherited environments and nestings of groups", "why_tests_cant": "A stale or inherited variable shows only if fastd happens to be started with it set; the buffer bound is reached only by the longest address with the longest interface name.", "anchors": ["src/shell.c: fastd_shell_env_set_iface, shell_command_setenv", "src/peer.c: fastd_peer_set_shell_env_addr, fastd_peer_set_shell_env", "src/fastd.c: on_pre_up, on_up, on_down, on_post_down", "src/protocols/ec25519_fhmqvc/util.c: fastd_protocol_ec25519_fhmqvc_set_shell_env", "src/peer_group.h: fastd_peer_group_lookup"]}
{"id": "C58", "title": "Connections end only for a reason", "statement": "In every reachable state, handling any event ends the connection to a peer only if: its session is over (expired, or its nonces are used up); or, for its own timer, nothing was received from it for 90 seconds; or the event is a reload or a reset of all peers; or the event is a handshake packet that is authenticated with an ephemeral key of this node that is still valid and was never used for a session with its sender, the sender's key being allowed, and the sender is that peer itself or now uses the address of that peer, which is not an address from that peer's configuration. So packets of anyone who cannot authenticate, replays included, never disconnect a configured peer. For peers that are not configured but were accepted by on-verify this is false: a handshake request with such a peer's key, from any address and without any authentication, deletes the connected peer when the verification command refuses it or the limit of running verifications is reached; no other case exists.", "quantifier": "all configurations, reachable states, events, packets, and choices of the environment", "why_tests_cant": "It is a statement about every packet an attacker can send in every state of all peers; the exception needs a second handshake of a connected dynamic peer while 32 verifications run.", "anchors": ["src/peer.c: reset_peer, fastd_peer_claim_address, reset_peer_address, fastd_peer_handle_task", "src/protocols/ec25519_fhmqvc/handshake.c: establish, handle_dynamic, fastd_protocol_ec25519_fhmqvc_handshake_handle", "src/protocols/ec25519_fhmqvc/ec25519_fhmqvc.c: check_session", "src/receive.c: handle_socket_receive", "src/verify.c: fastd_verify_peer"]}
{"id": "C59", "title": "Two nodes configured for each other connect and agree on keys and method", "statement": "Take two nodes, each with the other one as configured peer, with the same protocol, mode, MTU and MAC, a key exchange that gives both the same result, and at least one common method. Assume that packets of the other node can be attributed to that peer (its address, or an allowed one, and no other peer is at or configured for that address), that the peer limits leave room, that no handshake finished with this peer in the last seconds, that the ephemeral keys used are still valid and newer than the last one used with this peer, and that initialising the method and creating the interface succeed. Then in every reachable state of the two nodes: (1) the bytes of the initial handshake make the second node send a response, which sets up no session and leaves its ephemeral key valid for more than 15 seconds; (2) the bytes of the response make the first node establish the connection as initiator and send the last packet; (3) the bytes of the last packet make the second node establish the connection as responder. Both get the same two shared secrets, the same pair of ephemeral keys and the same method, which is the first one in the list of the responder that the initiator allows, and a valid session; a peer that was not connected before is reported as up. No packet of this exchange ends in an error, a crash or silence.", "quantifier": "all pairs of configurations fulfilling `partners`/`compatible`, all reachable states of both nodes, all ephemeral keys, sockets, addresses and times", "why_tests_cant": "A test can connect two nodes in a few states and with a few configurations; that nothing in any reachable state (other peers, previous sessions, cached handshake keys, key changes between the packets, timers) makes two willing nodes miss each other is a statement about all states and all pairs of configurations.", "anchors": ["src/protocols/ec25519_fhmqvc/handshake.c", "src/handshake.c", "src/receive.c", "src/peer.c"]}
{"id": "C60", "title": "A configuration file means what its statements say", "statement": "A configuration (main file or standard input, with all included files) is accepted if and only if its tokens are a sequence of statements of the configuration language whose operands are in their ranges, whose included files can be read and consist of such statements in turn (settings that are not about peers only outside of groups, statements of a peer in files included as or in peers, at most ten files nested), and whose peers each have a key that is a point of the curve and that no other peer has. The resulting configuration is then exactly the one these statements describe: of a setting given several times the last one counts; methods, remotes, peer directories and bind addresses are collected in order, methods without duplicates; the default bind address of a family is the last one declared as default or else the first one that fits; peers and groups belong to the group in whose braces, or in whose included file, they stand; commands run in the directory of the file that names them. In every accepted configuration the MTUs are 576 to 65535, limits are below 2^31, marks below 2^32, interface names have no slash and at most one of %n and %k, keys have 32 bytes and are pairwise distinct, the groups form a tree below the default group and each peer is in one of them. Every other input is rejected, or ends the program with an error; that is the case only for a cipher, MAC, protocol or bind device that is not available and for an eleventh nested file, in particular for a file that includes itself. Reading never fails an assertion or uses a peer or group that does not exist.", "quantifier": "all file systems, working directories, contents of the files, sizes of the reads, build options, sets of supported algorithms; any number of statements, groups nested to any depth", "why_tests_cant": "The language has about fifty statement forms that interact through defaults, groups, includes and directories; tests parse a handful of files, and none can show that no file is accepted with a meaning other than that of its statements, or that no malformed file reaches an action with a missing peer or group.", "anchors": ["src/config.y", "src/config.c", "src/peer_group.h", "src/lex.c"]}
{"id": "C61", "title": "A command line means what its options say", "statement": "The program accepts a command line if and only if it is a sequence of the options of this build, each followed by an argument of its kind if it takes one: decimal numbers in their ranges, one of the named modes and levels, the protocol that exists, an address with or without port, files that read as C60 says. The resulting state is then exactly the one that the options describe, in the order in which they stand and as if each were the corresponding statement of a configuration file read at that place: files given earlier are overridden by later options and the other way round; of --generate-key and --show-key the last one counts; if nothing says where to log, messages up to level verbose go to the standard error. The program prints help or version and ends successfully if and only if such an option follows a sequence of acceptable ones, whatever comes behind it. Every value is in the same ranges as in a configuration file. Every other command line ends the program with an error message, without a failed assertion and without access to memory that does not exist, except that --bind with an IPv6 address and an interface in brackets, which the build accepts for that address, uses freed memory. False are the claims of the manual that the name of a file given with --config-peer becomes the name of the peer (it has none), and that the default log level is info (it is verbose).", "quantifier": "all lists of arguments of any length, file systems and contents of files, standard inputs, build options", "why_tests_cant": "Options, files and defaults interact by their order, and arguments are arbitrary strings; no finite set of command lines shows that none is accepted with another meaning or crashes.", "anchors": ["src/options.c", "src/options.def.h", "src/config.c", "doc/source/manual/cmdline.rst"]}
{"id": "C62", "title": "The process has the configured user and exactly the privileges it needs", "statement": "When the main loop is reached, the real, effective and saved UIDs and GIDs are those of the configured user and group (the group of the user unless one is configured), and unchanged if none is configured; if the system allows it at the start, the supplementary groups are those of the user, or only the configured group. With capabilities dropped (also early or force), the permitted and the effective capabilities are exactly: CAP_NET_ADMIN if interfaces may have to be created later (not for force) or there is a packet mark and no family has a socket of its own or offloading is used, CAP_NET_RAW if sockets of peers are bound to a device or offloading is used, CAP_NET_BIND_SERVICE if offloading is used; nothing is inheritable or ambient. If the user is not root, then no sequence of system calls and executed programs ever changes the IDs or the groups, or obtains another capability, and commands have no capability at all. Until then things happen in a fixed order: status socket, binding, pre-up command, TAP interface, new groups, PID file, the report of success, the drop if early, up command and interfaces of peers, the drop otherwise, peer directories. Binding and the pre-up command have the credentials from the start, with the three capabilities effective if they are permitted; the status socket and the PID file are created as the configured user, if the process may change to it; up commands are run as the configured user after an early drop, and else as the user that has started the program. The retained capabilities suffice to create the interfaces and sockets of the main loop, except for a packet mark when one address family has a fixed port and the other one has not. False are: that with an early drop the interfaces of configured peers can still be created; that without dropping capabilities the effective ones remain; that after the reported success the start cannot fail; that for root without a configured user commands have no more capabilities than the process.", "quantifier": "all configurations, user databases, initial credentials and capability sets, outcomes of the system calls, numbers of peers, and sequences of later system calls", "why_tests_cant": "The result depends on the initial credentials, the capability sets, the configuration and the order of the calls; that nothing can be regained is a statement about all sequences of system calls.", "anchors": ["src/capabilities.c", "src/fastd.c", "src/config.c", "src/status.c", "src/socket.c", "doc/source/manual/config.rst"]}
{"id": "C63", "title": "Nodes that connect agree on keys, secrets and method", "statement": "Any number of nodes run, and the network delivers arbitrary datagrams to them at arbitrary times (lost, repeated, reordered, redirected, modified, invented), except that nobody forges message authentication codes under the handshake key shared by two of the nodes. When a node derives a session with another node's key in a handshake begun by the other side, then the other node has already derived a session with the first node's key: each names the ephemeral key of the other, and handshake key, shared secret and method are the same. Two sessions with a configured peer never belong to the same session of the other side. When a node derives a session in a handshake it has begun, the other node has answered exactly its ephemeral key and has computed the same secrets, and the method is the first one of the other node's list (the methods of the group it has this node in) that this node has for the peer. Packets with the same authenticated content have the same value for every record except the code. It is false that the other side always has a session already when the side that began the handshake has one.", "quantifier": "all families of nodes with any parameters and configurations, all executions of any length, all datagrams, all nodes of the family", "why_tests_cant": "An adversary chooses the datagrams and their order among unboundedly many nodes and sessions; a test shows that honest runs agree, not that no manipulated run leads to different keys or a weaker method.", "anchors": ["src/protocols/ec25519_fhmqvc/handshake.c", "src/handshake.c", "src/handshake.h", "src/protocols/ec25519_fhmqvc/state.c"]}
{"id": "C64", "title": "Wanted connections are retried without end, every address in turn", "statement": "An enabled peer with configured addresses or hostnames that is not connected always has a handshake scheduled at most 22.5 seconds ahead and a task that is due no later; the same holds for a connection whose session is to be replaced. No event other than the peer's own turn puts the handshake off: it leaves time and place in the address list alone, or restarts the peer at its first address (a handshake within 3 seconds, or 22.5 seconds if the hostname must be looked up first), or is the answer to a lookup and at most brings the handshake forward. At its turn, unless a peer limit of its groups is reached, the node sends exactly one handshake to the address that is up, moves on to the next address in cyclic order over all remotes and all of their addresses, looks the hostname up again if it moves on to one, and schedules the next turn in 17.5 to 22.5 seconds; only if the hostname has no addresses, the address belongs to another peer, or there is no socket, no handshake is sent. With the limit reached nothing is sent and the round starts over later. After more turns than there are places, every address was up.", "quantifier": "all parameters and configurations, all executions, all peers, all numbers of remotes and addresses", "why_tests_cant": "A schedule that is lost or keeps being put off only shows in particular interleavings of datagrams, lookups, limits and reloads, and only as something that never happens again; a test run ends.", "anchors": ["src/peer.c", "src/peer.h", "src/resolve.c", "src/send.c", "src/task.c"]}
{"id": "C65", "title": "Scripts see interfaces and connections in matched pairs", "statement": "At every moment of every execution: the pre-up script ran first, before any interface was opened; the shared interface, the own interface of a peer and the interface of an offload session are each opened, announced by the up script, announced by the down script and closed in this order, any number of times; a peer has at most one interface at a time; for each peer, establish and disestablish scripts alternate, and a connection is only announced while an interface that carries it is up. In TAP mode the shared interface and no other is up all the time; otherwise a peer's own interface is up as long as the connection lasts, or with `persist interface yes' all the time the peer is configured and enabled (except that a peer from a peer directory whose interface could not be created has none until it connects). Disabled and removed peers have none. If the process is ended by a signal, every up script got its down script and every establish script its disestablish script, all interfaces are closed, and the post-down script runs last. If it ends because of an error this does not hold (shown by an execution: a reload that enables a peer of the configuration file whose interface cannot be created ends the process while another peer is connected).", "quantifier": "all configurations, all executions (any sequence of resets, handshakes, reloads, dynamic peers, signals), all results of opening interfaces and offload sessions", "why_tests_cant": "Interfaces are closed in four places and opened in three, under conditions on mode, persistence, kind of peer and offload that combine with every order of resets, reloads and failures to open a device.", "anchors": ["src/fastd.c: init, cleanup, delete_peers", "src/peer.c: reset_peer, setup_peer, delete_peer, fastd_peer_set_established, fastd_peer_add, fastd_peer_reset_all", "src/config.c: configure_peers, fastd_config_load_peer_dirs, config_check_base", "src/iface.c: fastd_iface_open, fastd_iface_close"]}
{"id": "C66", "title": "Results of helper threads reach the main thread intact and in order", "statement": "However resolver threads, verifier threads, signal handlers and the main thread are interleaved: the notifications the main thread handles, followed by those still waiting in the socket, are exactly the ones that were sent, in the same order. Each one carries the peer and remote (or the peer, socket, addresses and handshake data of the verification) its thread was started for, together with what that thread found out: whether the command succeeded, or all IPv4 and IPv6 addresses getaddrinfo returned, v4-mapped ones as IPv4, without the entries of other families or excessive length. A thread sends at most one result. No buffer is exceeded, no unknown notification is seen and the main thread never reads from the empty socket. Reading until the socket is empty handles everything that was sent; a result is only lost if sendmsg fails.", "quantifier": "all interleavings, all numbers of threads, all lists of addresses, all contents of uninitialised buffers", "why_tests_cant": "The order of threads and signals relative to the two reads of the main thread cannot be controlled, and the length of each message depends on what the resolver of the system returns.", "anchors": ["src/async.c: fastd_async_handle, fastd_async_enqueue", "src/resolve.c: resolve_peer, fastd_resolve_peer", "src/verify.c: fastd_verify_peer, do_verify_thread"]}
{"id": "C67", "title": "Packets are sent on a socket that fits, from the address the peer knows, and sockets are not leaked", "statement": "A reply to a packet is sent to the packet's sender, on the socket on which the packet was received, with an address of the family of that socket, and the system is asked to send it from the address the packet was sent to (on the same interface if that is a link-local address, as IPv4 if it is v4-mapped). Payload of a connection established by such a packet is sent in the same way. Packets whose destination address is unknown are dropped, and no content of the control messages leads to an access outside of them. Whatever addresses are tried, whichever connections are established and lost, and whether opening sockets succeeds or not: the program does not run into a missing socket or address, and all packets are sent on sockets that can be used for their destination, if each default socket can be used for all addresses tried (in particular if bind addresses are given for both families at once, with random ports or not at all). Without this condition it is false: with separate sockets for IPv4 and IPv6 the one for the address tried first is kept for addresses of the other family, to which nothing is sent. Each socket opened for a peer is closed or in use by the peer.", "quantifier": "all control messages, all sequences of bind statements, all sequences of events of a peer, all addresses", "why_tests_cant": "The failing combination of bind addresses, remotes of both families and order of attempts is easily missed, as packets are dropped by the system with nothing but a debug message; a leaked socket is only noticed when descriptors run out.", "anchors": ["src/receive.c: handle_socket_control, fastd_receive", "src/send.c: add_pktinfo, fastd_send", "src/peer.c: fastd_peer_reset_socket, free_socket, fastd_peer_claim_address, reset_peer_address", "src/socket.c: bind_socket, fastd_socket_open, fastd_socket_close", "src/config.c: fastd_config_bind_address"]}
{"id": "C68", "title": "Log messages are well-formed, keep hidden addresses hidden, and go where they should", "statement": "For each message the program can log and all values of its arguments: every conversion is a known one and fetches an argument of the type that is passed, the message is formatted without writing outside of its buffer, and its text (cut off after 1023 bytes) goes to stderr if logging is not yet initialised or the level is included in that of stderr, and to syslog if it is included in that of syslog. With hidden IP addresses (resp. MAC addresses), nothing that is logged depends on the IP addresses of other hosts (resp. on MAC addresses), only on their ports. Each message is a single line, provided that names in the configuration and from the system have no line breaks, except for messages with the version string a peer has sent: a handshake response, which need not be authentic, can put arbitrary lines into the log. A message with an unknown conversion, if there were one, would recurse until the stack is exhausted.", "quantifier": "all messages, all arguments, all levels and settings, all contents of the uninitialised buffer", "why_tests_cant": "Most messages are only logged in rare situations, and a wrong argument type often has no visible effect on the machine of the developer; that nothing depends on an address is a statement about pairs of runs.", "anchors": ["src/log.c: fastd_logf, fastd_vsnprintf, snprint_peer_str, fastd_snprint_peer_address", "src/log.h: pr_error_errno, exit_errno, exit_bug", "all calls of pr_* and exit_* in src"]}
{"id": "C69", "title": "The status socket shows the node as it is", "statement": "In each reachable state the status document is built without undefined behaviour and shows exactly the enabled peers, each once and by its own key, with its complete address (it always fits its buffer); the connection is null unless the peer is connected, and otherwise has the method that the next packet to the peer is encrypted with, the counters, and in TAP mode the MAC addresses last used by the peer. A client receives a prefix of the text, and all of it if no write fails, however the writes are split; the connection is closed and all memory released exactly once, also if no thread can be created. Of several instances with the same socket path, the socket at the path is always that of the running one, the others do not remove it, and an instance can always be started if no other is running, even after crashes.", "quantifier": "all reachable states and all names, counters and addresses; all results of write; all interleavings of the system calls of any number of instances", "why_tests_cant": "Which method is in use depends on rare overlaps of two sessions, buffer sizes matter only for the longest addresses, and interleavings of several instances cannot be enumerated.", "anchors": ["src/status.c: dump_status, dump_peer, dump_thread, fastd_status_init, status_socket_lock, fastd_status_close", "src/protocols/ec25519_fhmqvc/ec25519_fhmqvc.c: protocol_get_current_method", "src/protocols/ec25519_fhmqvc/util.c: fastd_protocol_ec25519_fhmqvc_describe_peer"]}
{"id": "C70", "title": "Signals are acted upon in time and children are waited for", "statement": "In every execution: a SIGHUP (SIGUSR2) sent and then let through leads to a reload (reset) before the next iteration of the main loop, and there are never more reloads or resets than signals; after a SIGTERM, SIGQUIT or SIGINT let through no iteration follows, and cleanup happens only after such a signal; each asynchronous child that has ended is waited for before the next iteration, exactly once, and no wait fails. The process never waits while a signal is pending or noted or an asynchronous child has ended. Signals interrupt the main thread only while it waits, and are kept otherwise; SIGPIPE, SIGTTIN, SIGTTOU and SIGUSR1 have no effect. Without epoll signals are let through in each iteration; with epoll this is false for a loop that is always busy. The process ends by a signal that was sent, if it is a terminating one after cleanup, unless a second, different one arrives in the meantime: then it exits with status 255. Commands start with no signal blocked and no handlers, but ignore the four signals above.", "quantifier": "all interleavings of any length of the steps of the main thread with signals, children and notifications; both variants; all orders of delivery", "why_tests_cant": "Lost wake-ups and lost signals need a signal in a window of a few instructions; there are infinitely many interleavings.", "anchors": ["src/fastd.c: on_signal, init_signals, reap_zombies, handle_signals, run, terminate, fastd_main", "src/polling.c: fastd_poll_handle (epoll and poll)", "src/shell.c: shell_command_do_exec, shell_command_exec_async", "src/async.c: fastd_async_enqueue"]}
{"id": "C71", "title": "L2TP offloading keeps sessions, sockets and the kernel's tunnels together", "statement": "In every execution, whatever system calls and Netlink requests fail: no internal error, no endless wait for a Netlink message and no use of a closed or freed socket; the open sockets are those of the bind addresses, those opened for peers and those of sessions, each used by one peer only; tunnels of the process exist only on sockets of sessions, and only established peers have sessions. If no Netlink message is lost, each session has in the kernel its tunnel with a nonzero unique id, on its own socket, with an interface of the configured (or given) unique name and the configured MTU, and the socket is bound and connected to the peer's current addresses; sessions of different peers share no socket, id or interface. False in general: that a session has a tunnel in the kernel if messages can be lost (failing to send or to receive counts as success, and another program's interface may be taken for the session's). After one failed receive that leaves a message behind, no new session can be started for about 2^32 requests. The parent of an offload socket is never used after it was freed if no socket is given an address that is in use; it may be used otherwise.", "quantifier": "all sequences of packets, handshakes, resets and changes by other programs, of any length; all results of system calls, random numbers and Netlink requests; all configurations of names, MTUs and default sockets, all numbers of bind addresses", "why_tests_cant": "Needs root, a kernel with L2TP and injected failures of each system call in each order; leaks and mix-ups depend on long histories.", "anchors": ["src/offload/l2tp/l2tp.c: do_nl, genl_get_family_id, l2tp_tunnel_create, l2tp_session_create, l2tp_session_get_ifname, l2tp_session_delete, l2tp_selftest, fastd_offload_l2tp_init, connect_socket, free_offload_session, fastd_offload_l2tp_update_session, fastd_offload_l2tp_init_session", "src/socket.c: fastd_socket_open, fastd_socket_open_offload, fastd_socket_close", "src/peer.c: free_socket, reset_peer, fastd_peer_reset_socket, fastd_peer_set_established, fastd_peer_claim_address", "src/receive.c: handle_socket_receive"]}
{"id": "C72", "title": "Netlink requests say what is meant, replies are read within the buffer and understood", "statement": "Each request to the kernel (family lookup, tunnel and session creation, interface name, session deletion) is sent as one well-formed Netlink message with exactly the intended type, flags, command and attributes, padded with zeros, with a fresh sequence number, and never exceeds its buffer. For well-formed replies in any number, grouping and order the result (success, error number, family id, interface name of at most 15 bytes) is that of the first decisive reply, independently of the buffer's previous contents, and the same as in the model of offload sessions (C71). For arbitrary bytes received, all reads are within the buffer and all loops end, provided no message has a length of 2^31 or more (and no error number is -2^31); without that, reads outside of the buffer and an endless loop are possible, and a length that is no multiple of 4 can make the result depend on uninitialised memory. A request that could not be sent counts as successful.", "quantifier": "all requests, ids, names and sequence numbers; all sequences of received datagrams of any size and content; both byte orders; all buffer sizes from 128 bytes and contents", "why_tests_cant": "A running kernel never sends malformed or unusual replies; reading a few bytes too far has no visible effect.", "anchors": ["src/offload/l2tp/l2tp.c: parse_cb, run_parse_cb, do_nl, getfamily_cb, genl_get_family_id, fastd_l2tp_tunnel_create, fastd_l2tp_session_create, session_get_ifname_cb, fastd_l2tp_session_get_ifname, fastd_l2tp_session_delete", "src/dep/libmnl/src/attr.c: mnl_attr_ok, mnl_attr_next, mnl_attr_validate, mnl_attr_parse, mnl_attr_put, mnl_attr_put_strz", "src/dep/libmnl/src/nlmsg.c: mnl_nlmsg_put_header, mnl_nlmsg_put_extra_header, mnl_nlmsg_ok, mnl_nlmsg_next, mnl_nlmsg_seq_ok", "src/dep/libmnl/src/callback.c: __mnl_cb_run, mnl_cb_error", "src/dep/libmnl/src/socket.c: mnl_socket_recvfrom"]}
{"id": "C73", "title": "Every packet reaches each of its recipients once and is counted once", "statement": "A packet read from an interface is sent exactly once, unchanged, encrypted with a valid session, to each of its recipients (the interface's peer; in TUN mode or for multicast and unknown addresses all connected peers; otherwise the peer using the destination address), with a second attempt without source address after EINVAL or ENETUNREACH only; the exceptions are recipients whose session has just expired or fails to encrypt. A data packet from a peer is decrypted with the previous or the current session, and its payload, unless empty, truncated or without interface, is written to the interface once and, with forwarding, passed on to its recipients except its source. The node's counters (received, reordered, sent, dropped, failed; packets and bytes) are exactly the numbers and sizes of these payloads modulo 2^64, those of a peer the same since its last reset, and the node's are the sum over all connections, present and past. Handshakes and empty packets are not counted and never access a missing peer. Not true: the node's counters are the sum over its present peers; received packets have been accepted by the interface; each packet is counted for each recipient.", "quantifier": "all sequences of packets, handshakes, resets, additions and deletions of peers; all numbers of peers; all results of system calls, encryption, decryption and session timeouts at each moment; TUN and TAP mode, with and without forwarding", "why_tests_cant": "Error numbers of sendmsg() and sessions expiring while a packet is distributed are hard to provoke; a counter that is off in rare cases is not noticed.", "anchors": ["src/send.c: fastd_send, send_all, send_data_tap_single, fastd_send_data", "src/receive.c: fastd_handle_receive", "src/peer.h: fastd_stats_add", "src/peer.c: reset_peer, fastd_peer_reset, fastd_peer_delete", "src/protocols/ec25519_fhmqvc/ec25519_fhmqvc.c: check_session, use_old_session, protocol_handle_recv, session_send, protocol_send, fastd_protocol_ec25519_fhmqvc_send_empty", "src/iface.c: fastd_iface_handle, fastd_iface_write", "src/handshake.c: fastd_handshake_send_free"]}
{"id": "C74", "title": "TUN/TAP interfaces are opened as configured and given back, and packets cross them unchanged", "statement": "Opening an interface opens the platform's device file and no other (its path fits the buffer), asks for the configured kind (TUN or TAP, without packet information on Linux; with address families on FreeBSD and NetBSD in TUN mode) and name, sets the MTU and registers the descriptor for polling; it fails only for a name the platform does not accept or after a failing call. On FreeBSD an interface that did not exist before, and only such a one, is destroyed after its descriptor was closed, both when opening fails and when it is closed. Over any sequence of opening and closing no descriptor is used after being closed, closed twice or while polled, no memory is freed twice, and what is open, polled and allocated is exactly what the interfaces in use need. Received packets are written unchanged, preceded by the address family of their IP version where the platform wants one (packets of other versions are dropped); packets are read unchanged up to the maximal payload, or MTU - 4 bytes where there is an address family. Not true: packets of up to MTU bytes are read unchanged on the BSDs in TUN mode; a received packet can always be written (cipher-test as only method there ends the program); failure to open the device file on Linux only gives up the interface.", "quantifier": "all platforms and modes, names and MTUs, all answers of system calls, all sequences of opening and closing; all packets, methods and configured sizes", "why_tests_cant": "Tests run on one platform, usually Linux, and without failing ioctls; leaked descriptors and interfaces show only after many peers came and went.", "anchors": ["src/iface.c: fastd_iface_set_mtu, open_iface_linux, open_iface, set_tun_mtu, set_tap_mtu, setup_tun, setup_tap, cleanup_iface, fastd_iface_handle, fastd_iface_write, fastd_iface_open, fastd_iface_close", "src/fastd.h: fastd_max_payload", "src/config.c: configure_method_parameters, configure_peers", "src/buffer.h: fastd_buffer_push_from, fastd_buffer_pull"]}
{"id": "C75", "title": "Peer directories define the peers that their files define", "statement": "When the peer directories are loaded or reloaded, the directories of every peer group are read once, no group before the one that contains it and the directory named last first. The definitions obtained are, in the order of the directory entries, one for each regular file whose name neither begins with a dot nor ends with a tilde, that consists of proper peer statements (with files included up to nine levels deep) and sets a valid key: with the file's name, the directory, the group of the directory and the settings of the file. A directory or file that is missing, unreadable or wrong defines nothing and does not affect what others define; nothing else in the configuration is changed, and the working directory is the same afterwards. The program does not end unless, after proper statements, a file includes others more than nine levels deep. Not true: a file in a peer directory never ends the program (one that includes itself does); a peer is kept if its file cannot be read at a reload.", "quantifier": "all accepted configurations with any groups and directories, all directory contents and files, all failures of opening, reading and changing to directories", "why_tests_cant": "Tests use a few well-formed directories; mixtures of groups, unreadable directories, broken, nested and unusual files in any order are never covered.", "anchors": ["src/config.c: read_peer_dir, read_peer_dirs, fastd_config_add_peer_dir, peer_dirs_read_peer_group, fastd_config_load_peer_dirs, fastd_config_read", "src/config.y: peer_conf, include", "src/peer.c: fastd_peer_add"]}
{"id": "C76", "title": "A program started in the background reports whether it is ready", "statement": "With --daemon, if the standard descriptors are open at the start, the exit status of the program that was started is 0 only if the daemon has read its configuration, bound its sockets, run the pre-up command, opened its interface, written its PID file and told so; it is 1 otherwise, and then a system call of the parent failed or the daemon (or the process in between) ended before it was ready. The parent never waits without one of the processes having something to do, they make a limited number of calls, and the process in between is waited for. The daemon leads no session and, unless setsid fails, is in a new one; commands it starts do not inherit the pipe. Not true: status 0 means that the daemon keeps running; with all standard descriptors closed the status is right, or the parent does not wait for a command left in the background after the daemon failed.", "quantifier": "all interleavings of the processes, all failures of system calls, processes killed at any time, all commands and messages", "why_tests_cant": "The interleavings and failures are not controllable in tests; a parent that hangs or reports the wrong status shows only in rare orders of events.", "anchors": ["src/fastd.c: daemonize, init, init_config, init_signals, fastd_close_all_fds", "src/shell.c: shell_command_do_exec", "src/log.c: fastd_logf"]}
{"id": "C77", "title": "Ciphers run on the processor; the memory of sessions is given back once, overwritten", "statement": "Whatever was compiled and whatever processor it runs on, every cipher and MAC uses the implementation that the last accepted \"cipher ... use\" or \"mac ... use\" statement names, otherwise the fastest one that the processor runs; statements are refused exactly if they name none that was compiled and runs; no implementation is used that the processor does not run, and a cipher or MAC is found by name exactly if it has a usable implementation. While peers come and go and sessions are established, used, superseded, reset and lost, no session, cipher or MAC state is used after it was freed, freed twice or used by another implementation or method; the objects that exist are exactly those that the peers' sessions hold, each once; nothing is left after the end. All memory of sessions is overwritten before it is given back. The keys of a new session are consecutive parts of the derived secret in the order of the method's algorithms, none shared or left out, and the key of GHASH is the block that the cipher yields. After a handshake was finished by the other side the cached handshake key is overwritten. Not true: the state of a peer is overwritten before it is given back; the cached handshake key of an unfinished handshake stays in it.", "quantifier": "all builds, processors, configurations of ciphers and MACs, methods, and all histories of peers and sessions", "why_tests_cant": "A test runs on one processor and one build; use after free and leaks depend on the order of supersession, failure and reset, and whether memory was overwritten is not observable from outside.", "anchors": ["src/crypto/cipher/ciphers.c.in: fastd_cipher_init, fastd_cipher_config, fastd_cipher_info_get_by_name, fastd_cipher_get", "src/crypto/mac/macs.c.in", "src/cpuid.h", "src/crypto: init and free of all implementations", "src/methods: method_session_init, method_session_free, method_key_length of all providers", "src/protocols/ec25519_fhmqvc/handshake.c: supersede_session, new_session, establish, clear_shared_handshake_key", "src/protocols/ec25519_fhmqvc/state.c: reset_session, init/reset/free_peer_state", "src/protocols/ec25519_fhmqvc/ec25519_fhmqvc.c: protocol_handle_recv, protocol_send"]}
{"id": "C78", "title": "The memory of the configuration and of the peers is given back once", "statement": "While options and configuration files are read, peer directories are loaded any number of times, peers change, are renamed, turn out to be duplicates, come and go dynamically, and host names are resolved: nothing is given back twice, no freed object and no NULL is used, no address inside of an object is given back, and no state is met that the code calls a bug. At any time the objects that were allocated and not given back are exactly those that the configuration, the peers and the files being read hold, each once, so that nothing leaks; whatever peers refer to without holding it (their group and directory, addresses in their list of remotes), the group of on verify, the default bind addresses and the names of methods are in memory that was not given back. At the end of the program every object that was ever allocated has been given back exactly once. A file of a peer directory that cannot be read or is not valid leaves nothing behind and never ends the program, and reading an unchanged peer again needs no more memory than before.", "quantifier": "all configurations, options, contents of directories, resolver answers and all orders of loading, deleting and dynamic addition", "why_tests_cant": "Leaks and double frees depend on which statements are repeated, which files fail where, and in which state a peer is when its key shows up again; a run under valgrind checks one such history.", "anchors": ["src/config.c: default_config, fastd_config_method, fastd_config_ifname, fastd_config_bind_address, fastd_config_peer_group_push, free_peer_group, read_peer_dir, fastd_config_add_peer_dir, fastd_config_read, configure_user, configure_methods, destroy_methods, fastd_config_release", "src/config.y", "src/options.c: option_config_peer", "src/shell.h: fastd_shell_command_set, fastd_shell_command_unset", "src/fastd.h: fastd_string_stack_free", "src/peer.c: fastd_peer_handle_resolve, setup_peer, fastd_peer_free, delete_peer, fastd_peer_add", "src/fastd.c: delete_peers, cleanup"]}
{"id": "C79", "title": "Run modes do what they say, and the program starts exactly under the documented conditions", "statement": "For every command line that is accepted: --verify-config takes precedence over the other modes, prints nothing, and exits with success exactly if the build's conditions hold (Android integration: TUN mode and exactly one peer for ever; L2TP offload: multi-TAP mode without persistent interfaces) and every method named in any peer group is supported by this build and machine. --generate-key needs no valid configuration and prints a secret of 64 lower-case digits made from 32 random bytes, and its public key (with --machine-readable the secret only). --show-key prints the public key exactly if the configured secret is 64 hexadecimal digits of a number divisible by 8. Otherwise the program gets past its checks exactly if there is such a secret, the build's conditions hold, there is a peer, a peer directory or a verify command, the user and group exist, and all methods are supported, where the method null is added exactly if the default group has none; the secret is checked before the program detaches, everything else afterwards. The program then holds an eighth of the secret and its public key, the user and groups as configured, and finds exactly the methods in use by their names. What --verify-config rejects does not start. The key that --show-key prints is the one with which the program runs. A generated secret is accepted in every configuration, and --show-key prints the public key that was printed with it. No mode reaches undefined behaviour but by an empty method name. Not true: that what --verify-config accepts can start (no secret, no peers, unknown user).", "quantifier": "all command lines and configuration files, builds, machines, user databases and random bytes", "why_tests_cant": "The conditions depend on the build, the machine and the combination of options; tests see one build, and cannot show that every generated key is accepted later.", "anchors": ["src/fastd.c: init_config", "src/config.c: has_peer_group_peer_dirs, config_check_base, fastd_config_check, fastd_config_single_iface, fastd_config_verify, configure_user, configure_methods", "src/protocols/ec25519_fhmqvc/ec25519_fhmqvc.c: protocol_init", "src/protocols/ec25519_fhmqvc/util.c: fastd_protocol_ec25519_fhmqvc_generate_key, fastd_protocol_ec25519_fhmqvc_show_key", "src/random.c: fastd_random_bytes"]}
{"id": "C80", "title": "A session is a channel: the two ends together", "statement": "Let two ends with the same keys do anything in any order: send packets, receive copies of packets of the other end in any order and number, receive foreign datagrams, and learn that a newer session was established. Then no operation goes wrong at either end, and the receiving end hands the payload of packet k to its upper layer exactly if its session is still alive (3600 seconds, shortened to 60 seconds from the moment a newer session is established, and until it has itself sent 2^47-2^31-1 packets), and packet k is newer than all accepted ones, or was not accepted before, is at most 64 packets behind the newest accepted one, which arrived less than 10 seconds ago; packets without payload are not handed on; it is reported as reordered exactly if it is not the newest. So everything handed on was sent by the other end, nothing is handed on twice, and on a network that keeps the order everything that arrives is handed on whatever is lost and whatever foreign datagrams arrive in between. Packets whose number, counted from 1, has bit 39 set are refused. Not true: that an end never hands on a packet it has sent itself; it does when the network sends it back.", "quantifier": "all sequences of operations of both ends of any length, all payloads, all methods with header, all keys, ciphers and MACs", "why_tests_cant": "It composes encryption, nonces, the replay window and the lifetime for all schedules of a hostile network; tests run one schedule.", "anchors": ["src/protocols/ec25519_fhmqvc/ec25519_fhmqvc.c: session_send, protocol_handle_recv", "src/methods/common.c: fastd_method_is_nonce_valid, fastd_method_reorder_check", "src/methods/common.h: fastd_method_session_common_is_valid, fastd_method_session_common_superseded", "src/methods/*/*.c: method_encrypt, method_decrypt"]}
{"id": "C81", "title": "How long handshake secrets are used and kept", "statement": "Whatever handshakes are sent and received: a new ephemeral key pair is created at most every 15 seconds; only the newest one is offered and used in answers to initial handshakes, for less than 15 seconds; only the newest two are used to check answers, for less than 30 seconds each; a session is established only with the result of the key exchange with such a key pair, the peer's key and the key of its packet (also if that result comes from the cache). The ephemeral secrets in memory are those of the newest two key pairs; after handshakes at two times 15 seconds apart nothing is left of a key pair created 15 seconds before the first of them. The handshake cache of a peer is empty or holds the result of a key exchange as the responder with a key pair of this program, and is emptied when a session is established as the responder. Not true: that an ephemeral secret is erased when it is not valid any more (while no handshakes are sent or received it stays for ever); that a key pair older than 15 seconds is never used in an answer (after an asynchronous verification the newest one is used whatever its age); that nothing derived from an ephemeral secret outlives it (the cache does, and survives a reset of the peer).", "quantifier": "all sequences of operations of any length at any times, all keys, randomness and packets, all groups, hash and key derivation functions", "why_tests_cant": "It is about what is in memory and which key is used after every sequence of handshakes, at all times; tests neither look into memory nor wait.", "anchors": ["src/protocols/ec25519_fhmqvc/state.c: fastd_protocol_ec25519_fhmqvc_maintenance, new_handshake_key, init_peer_state, reset_peer_state", "src/protocols/ec25519_fhmqvc/handshake.c: update_shared_handshake_key, clear_shared_handshake_key, respond_handshake, finish_handshake, handle_finish_handshake, establish, handshake_init, handshake_handle, handle_verify_return"]}
{"id": "C82", "title": "systemd is told once that fastd is ready; Android's service protects every socket", "statement": "Whatever NOTIFY_SOCKET contains: nothing is accessed out of bounds; if it is a path or, after @, an abstract name of at most 108 bytes, exactly that socket is told READY=1 and the process number in decimal, otherwise nobody, and the descriptor is closed again whether or not connecting succeeds. With Android's integration no socket is used before its descriptor was sent to the service and the service has answered with X; with another answer it is closed (at the start the program ends); the interface is the descriptor received from the service, which is told the process number in decimal; if no bind addresses are configured everything is sent over the connection to the service. Not true: that a longer name is not used (the first 108 bytes are: some other socket is told); that descriptors are only sent to the service (sockets with a configured address are bound before the service is connected; their descriptors go to descriptor 0); that the end of the connection is noticed (an uninitialised byte decides about the socket); that a message without a descriptor is refused (it ends the program with an internal error).", "quantifier": "all values of the variable, all results of system calls, all sequences of opened sockets", "why_tests_cant": "It needs systemd's and Android's counterparts and their failures, and all names up to and beyond the limit.", "anchors": ["src/fastd.c: notify_systemd", "src/android.c: ancil_recv_fds_with_buffer, ancil_send_fds_with_buffer, init_ctrl_sock, fastd_android_receive_tunfd, fastd_android_send_pid, fastd_android_protect_socket", "src/socket.c: bind_socket", "src/iface.c: open_iface (Android)"]}
{"id": "C83", "title": "The assembly code of Salsa20 and Salsa20/12 computes the ciphers and keeps to the calling convention", "statement": "For every key, nonce and message of up to 2^38 bytes, and for every alignment of the buffers and of the stack pointer, the amd64 functions fastd_salsa20_xmm_xor and fastd_salsa2012_xmm_xor end, return 0 and write exactly the message xor the key stream of Salsa20 with 20 or 12 rounds to the output. They access no byte outside the message, the output, the key, the nonce and the 511 bytes below the stack pointer, change none outside the output and these, make no misaligned access that the processor refuses, and restore the stack pointer and all registers that a function has to keep. Applied again to their output with the same key and nonce they give back the message. Blocks with different keys, nonces or numbers start from different words. Not true: that no secrets are left behind (after every call with a message all bytes of the key are still in memory below the stack pointer, always in the same places).", "quantifier": "all contents of memory and registers, all lengths up to 2^38, all alignments", "why_tests_cant": "There are 2^320 keys and nonces and 2^38 lengths with three paths through the code (four blocks at once, a block, part of a block) and the order of the registers changing between them; test vectors only compare a few of them, and do not notice accesses out of bounds or registers that are not restored.", "anchors": ["src/crypto/cipher/salsa20/xmm/salsa20_amd64_xmm6.s: fastd_salsa20_xmm_xor", "src/crypto/cipher/salsa2012/xmm/salsa2012_amd64_xmm6.s: fastd_salsa2012_xmm_xor", "src/crypto/cipher/salsa20/xmm/salsa20_xmm.c: salsa20_crypt", "src/crypto/cipher/salsa2012/xmm/salsa2012_xmm.c: salsa2012_crypt"]}
