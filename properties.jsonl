{"id": "C01", "title": "Honest handshake yields one shared key", "statement": "If initiator and responder have each other's genuine static public keys, the same pre-shared key, the same protocol version and the same output-key domain separator, then delivering initiate_handshake's InitHello to the responder, its RespHello to the initiator and its InitConf to the responder makes each of the three handle_msg calls succeed, both sides report exchanged_with, and osk() returns the same key on both sides; the final EmptyData is accepted by the initiator and ends its retransmissions.", "quantifier": "all static keys, pre-shared keys, random choices, clock values, contents of the transmit buffers and all prior states of both servers in which the session ids are unused", "why_tests_cant": "a test runs one set of keys and random choices on fresh servers; the claim is about every prior state and every random choice", "anchors": ["rosenpass/src/protocol/protocol.rs::CryptoServer::initiate_handshake", "rosenpass/src/protocol/protocol.rs::CryptoServer::handle_msg", "rosenpass/src/protocol/protocol.rs::CryptoServer::osk"]}
{"id": "C02", "title": "A biscuit number is accepted at most once", "statement": "For each peer, the biscuit numbers carried by the InitConf messages that make handle_msg report a completed responder exchange are strictly increasing as 96-bit little-endian integers, so no biscuit is ever accepted twice.", "quantifier": "every finite history of API calls with arbitrary network input, clock and randomness", "why_tests_cant": "replay can be attempted after any history; tests only replay after one", "anchors": ["rosenpass/src/protocol/protocol.rs::CryptoServer::handle_init_conf", "constant-time/src/compare.rs::compare"]}
{"id": "C03", "title": "The responder keeps no per-peer state for an InitHello", "statement": "Processing an InitHello, accepted or rejected, leaves every peer (session, handshake, replay counter, cached response) and the peer/session index exactly as it was; only the biscuit counter and the biscuit keys may change.", "quantifier": "all server states, all byte strings starting with the InitHello type, clock and randomness", "why_tests_cant": "denial of service resistance is about every possible attacker packet", "anchors": ["rosenpass/src/protocol/protocol.rs::CryptoServer::handle_init_hello", "rosenpass/src/protocol/protocol.rs::HandshakeState::store_biscuit"]}
{"id": "C04", "title": "A retransmitted InitConf is answered from the cache", "statement": "After an InitConf has been accepted, receiving the same message again (its cookie field may differ) while the response is cached yields an EmptyData reply with the same payload, reports no new exchange and leaves the whole server state unchanged.", "quantifier": "all states, messages and intermediate operations that keep the cache entry alive", "why_tests_cant": "needs all interleavings between first delivery and retransmission", "anchors": ["rosenpass/src/protocol/protocol.rs::KnownInitConfResponsePtr", "rosenpass/src/protocol/protocol.rs::CryptoServer::handle_msg"]}
{"id": "C05", "title": "No sequence of calls and packets panics the protocol engine", "statement": "Starting from CryptoServer::new, any sequence of add_peer, initiate_handshake, handle_msg, handle_msg_under_load, poll, retransmit_handshake and osk with peers that exist and a transmit buffer of the documented size returns Ok or Err; no unwrap, slice index, vector index or poll folding panic is reached.", "quantifier": "all histories, all received byte strings, all clock readings, all randomness", "why_tests_cant": "panics on unexpected packets are remote denial of service; a fuzz test samples inputs only", "anchors": ["rosenpass/src/protocol/protocol.rs::KnownInitConfResponsePtr::remove", "rosenpass/src/protocol/protocol.rs::PollResult::fold", "rosenpass/src/protocol/protocol.rs::CryptoServer::handle_msg"]}
{"id": "C06", "title": "Session ids route to the peer that owns them", "statement": "Every session id found in the index belongs to an existing peer whose current session or current initiator handshake carries that id, every peer id in the index maps to the peer with that id, and, as long as a freshly drawn initiator session id differs from the peer's previous one, every live session and handshake can be found by its id, so two peers never share a session id.", "quantifier": "all reachable states", "why_tests_cant": "invariant over unbounded histories of inserts, expiries and aborts", "anchors": ["rosenpass/src/protocol/protocol.rs::CryptoServer::register_session", "rosenpass/src/protocol/protocol.rs::CryptoServer::unregister_session_if_vacant", "rosenpass/src/protocol/protocol.rs::IniHsPtr::insert", "rosenpass/src/protocol/protocol.rs::SessionPtr::insert"]}
{"id": "C07", "title": "add_peer gives distinct identities", "statement": "add_peer succeeds exactly when no configured peer has the same peer id; it then returns the next position and leaves existing peers untouched; on failure nothing changes. find_peer afterwards returns that position for that id.", "quantifier": "all reachable servers and all keys and versions", "why_tests_cant": "must hold for every order and combination of peers", "anchors": ["rosenpass/src/protocol/protocol.rs::CryptoServer::add_peer", "rosenpass/src/protocol/protocol.rs::CryptoServer::find_peer"]}
{"id": "C08", "title": "Rejected messages have no effect", "statement": "If handle_msg returns an error, sessions, handshakes and output keys of all peers are as before the call.", "quantifier": "all states and all received byte strings", "why_tests_cant": "the adversary picks the packet and the moment; error paths are numerous", "anchors": ["rosenpass/src/protocol/protocol.rs::CryptoServer::handle_msg", "rosenpass/src/protocol/protocol.rs::CryptoServer::handle_resp_hello", "rosenpass/src/protocol/protocol.rs::CryptoServer::handle_init_conf"]}
{"id": "C09", "title": "Output keys change only with notice", "statement": "The key returned by osk() for a peer changes or disappears only in a call that reports exchanged_with that peer or DeleteKey for that peer.", "quantifier": "all states, calls and inputs", "why_tests_cant": "the application pushes keys to WireGuard on these events only, so every unreported change is a lasting mismatch", "anchors": ["rosenpass/src/protocol/protocol.rs::CryptoServer::osk", "rosenpass/src/protocol/protocol.rs::CryptoServer::poll", "rosenpass/src/protocol/protocol.rs::HandleMsgResult"]}
{"id": "C10", "title": "poll's sleep hint is safe", "statement": "If poll returns Sleep(t) at time T, polling again at any time up to T+t (less the event grace) returns no event and changes nothing: no deadline is slept through.", "quantifier": "all reachable states and all clock readings", "why_tests_cant": "quantifies over all timer combinations of any number of peers", "anchors": ["rosenpass/src/protocol/protocol.rs::CryptoServer::poll", "rosenpass/src/protocol/protocol.rs::PollResult::sched"]}
{"id": "C11", "title": "poll is fair between peers", "statement": "If a peer has an event due, it is reported after at most as many polls as there are peers, whatever the other peers have pending.", "quantifier": "any number of peers, all states and non-decreasing clock readings", "why_tests_cant": "starvation only shows under adversarial load patterns", "anchors": ["rosenpass/src/protocol/protocol.rs::CryptoServer::poll", "rosenpass/src/protocol/protocol.rs::CryptoServer::peer_ptrs_off"]}
{"id": "C12", "title": "Expired sessions are removed and reported", "statement": "When poll returns DeleteKey(p), p had a session at least 180 s old (less the grace) and afterwards has none; when poll returns Sleep no session or handshake older than 180 s remains.", "quantifier": "all reachable states and clock readings", "why_tests_cant": "key erasure must not be missed in any state", "anchors": ["rosenpass/src/protocol/protocol.rs::SessionPtr::die_at", "rosenpass/src/protocol/protocol.rs::PeerPtr::poll"]}
{"id": "C13", "title": "Rekeying is requested once and at the right time", "statement": "poll requests an initiation for a peer only if none is already requested, the session (if any) is at least 120 s (responder) or 130 s (initiator) old and no live handshake exists; after requesting it does not request again until initiate_handshake for that peer succeeds.", "quantifier": "all states, all interleavings of poll with other calls", "why_tests_cant": "ordering property over unbounded histories", "anchors": ["rosenpass/src/protocol/protocol.rs::PeerPtr::poll", "rosenpass/src/protocol/protocol.rs::IniHsPtr::insert"]}
{"id": "C14", "title": "Retransmission back-off is bounded", "statement": "The delay before the (n+1)-th retransmission lies between half and the whole of min(0.5 s * 2^n, 10 s); delays never exceed 10 s; a handshake is retransmitted only until it is 180 s old.", "quantifier": "all retransmission counts and all random draws", "why_tests_cant": "random jitter and unbounded counts", "anchors": ["rosenpass/src/protocol/protocol.rs::IniHsPtr::register_retransmission", "rosenpass/src/protocol/constants.rs"]}
{"id": "C15", "title": "Biscuit keys are young when used for encryption", "statement": "Every biscuit is encrypted under a key created less than 300 s ago; the choice never replaces a key that is still young, and each key is erased by the first poll once it is 600 s old.", "quantifier": "all states and clock readings", "why_tests_cant": "time dependent choice between two slots", "anchors": ["rosenpass/src/protocol/protocol.rs::CryptoServer::active_biscuit_key", "rosenpass/src/protocol/protocol.rs::BiscuitKeyPtr"]}
{"id": "C16", "title": "Issued biscuit numbers never repeat", "statement": "Every RespHello a server sends carries, in its biscuit, the value of a 96-bit counter that starts at 1 and is incremented by one; so the numbers on the wire strictly increase and no two biscuits carry the same number before the counter is exhausted. (They need not be consecutive: an InitHello rejected late also uses up a number.) The nonce of a biscuit is the one that was drawn for it, in all but the bit that names the key.", "quantifier": "all histories", "why_tests_cant": "carry propagation over 12 bytes and unbounded histories", "anchors": ["rosenpass/src/protocol/protocol.rs::HandshakeState::store_biscuit", "constant-time/src/increment.rs::increment"]}
{"id": "C17", "title": "Byte counters behave like integers", "statement": "increment adds one modulo 256^n to the little-endian integer held in an n-byte array, compare orders equal-length arrays as little-endian integers, memcmp decides equality and xor is an involution.", "quantifier": "all byte arrays of every length", "why_tests_cant": "256^n inputs", "anchors": ["constant-time/src/increment.rs", "constant-time/src/compare.rs", "constant-time/src/memcmp.rs", "constant-time/src/xor.rs"]}
{"id": "C18", "title": "Length-prefixed messages survive any I/O schedule", "statement": "A message written with the length-prefix encoder through a writer that accepts arbitrary nonempty prefixes and read with the decoder through a reader that delivers arbitrary nonempty chunks arrives unchanged; the decoder never consumes bytes of the following message.", "quantifier": "all messages that fit the buffers, all splits of reads and writes, interruptions", "why_tests_cant": "exponentially many schedules", "anchors": ["util/src/length_prefix_encoding/encoder.rs::LengthPrefixEncoder", "util/src/length_prefix_encoding/decoder.rs::LengthPrefixDecoder"]}
{"id": "C19", "title": "The decoder rejects oversized messages and never panics", "statement": "Whatever bytes arrive in whatever chunks, the decoder either needs more data, holds a complete message no longer than its buffer, or reports MessageTooLarge; its internal advance().unwrap() never fails and it never writes outside its buffer.", "quantifier": "all byte streams, chunkings and buffer sizes", "why_tests_cant": "attacker controlled 64-bit header", "anchors": ["util/src/length_prefix_encoding/decoder.rs::LengthPrefixDecoder::read_from_stdio", "util/src/length_prefix_encoding/decoder.rs::LengthPrefixDecoder::advance"]}
{"id": "C20", "title": "Under load only cookie-bearing InitHellos cost anything", "statement": "While under load, a message that is neither an InitConf nor an InitHello with a cookie valid for the sender's address under a live cookie secret changes nothing but the cookie secrets, and the reply, if any, is a CookieReply that is no longer than the request.", "quantifier": "all states, packets and sender addresses", "why_tests_cant": "attacker chosen input", "anchors": ["rosenpass/src/protocol/protocol.rs::CryptoServer::handle_msg_under_load", "rosenpass/src/msgs.rs::CookieReply"]}
{"id": "C21", "title": "The cookie exchange makes progress", "statement": "If a server under load answers an InitHello with a CookieReply and the initiator processes it, then the initiator's next retransmission is accepted for processing by the server as long as the cookie secret is still live and the sender address is the same.", "quantifier": "all states, keys, addresses and times", "why_tests_cant": "two-party multi-step interaction", "anchors": ["rosenpass/src/protocol/protocol.rs::CryptoServer::handle_cookie_reply", "rosenpass/src/protocol/protocol.rs::CryptoServer::handle_msg_under_load", "rosenpass/src/protocol/protocol.rs::IniHsPtr::apply_retransmission"]}
{"id": "C22", "title": "A failed CookieReply does not disturb the stored cookie", "statement": "A CookieReply that does not authenticate leaves the initiator's stored cookie as it was.", "quantifier": "all states and packets", "why_tests_cant": "off-path attacker may inject at any time", "anchors": ["rosenpass/src/protocol/protocol.rs::CryptoServer::handle_cookie_reply"]}
{"id": "C23", "title": "Peers are only served with their configured hash function", "statement": "handle_msg never reports success of an InitHello or InitConf processed with a hash function other than the one configured for the peer it is attributed to.", "quantifier": "all states and packets", "why_tests_cant": "downgrade must be impossible for every packet", "anchors": ["rosenpass/src/protocol/protocol.rs::CryptoServer::verify_hash_choice_match"]}
{"id": "C24", "title": "Messages of wrong type or size are rejected without effect", "statement": "A packet that is empty, has an unknown first byte, or whose length is not exactly the length for its type is rejected and the server state is unchanged.", "quantifier": "all byte strings", "why_tests_cant": "infinite input space", "anchors": ["rosenpass/src/protocol/protocol.rs::CryptoServer::handle_msg", "rosenpass/src/msgs.rs"]}
{"id": "C25", "title": "Wire formats are unambiguous", "statement": "Parsing the serialisation of any InitHello, RespHello, InitConf, EmptyData, Biscuit or CookieReply returns the same fields and serialising a parsed packet returns the same bytes; lengths are the documented ones; message type codes convert back and forth.", "quantifier": "all field values", "why_tests_cant": "layout errors hide in field combinations", "anchors": ["rosenpass/src/msgs.rs"]}
{"id": "C26", "title": "Sealing is sound for the addressee", "statement": "A message sealed for a peer passes the seal check at the server owning that peer's public key when both use the same hash version; the seal check depends only on the bytes before the cookie field.", "quantifier": "all messages, keys, states", "why_tests_cant": "all field values", "anchors": ["rosenpass/src/protocol/protocol.rs::Envelope::seal", "rosenpass/src/protocol/protocol.rs::Envelope::check_seal"]}
{"id": "C27", "title": "Endpoint identifiers used for cookies separate senders", "statement": "The byte encoding of a remote endpoint has fixed length and two endpoints get the same encoding only if they agree on socket index, (v4-mapped) address, port and scope.", "quantifier": "all endpoints", "why_tests_cant": "infinite input space", "anchors": ["rosenpass/src/app_server.rs::SocketBoundEndpoint::to_bytes"]}
{"id": "C28", "title": "Endpoint discovery keeps every candidate once, in order", "statement": "Merging discovered, resolved and previously used addresses yields each address exactly once, in order of first appearance; scouting over all (socket,address) pairs reaches every pair.", "quantifier": "all address lists and socket counts", "why_tests_cant": "all list shapes", "anchors": ["rosenpass/src/app_server.rs::HostPathDiscoveryEndpoint"]}
{"id": "C29", "title": "I/O tokens are never shared", "statement": "The token dispenser never hands out a token that is still in use, whatever tokens are returned in between.", "quantifier": "all histories of dispense and return", "why_tests_cant": "history dependent", "anchors": ["rosenpass/src/app_server.rs::MioTokenDispenser"]}
{"id": "C30", "title": "PSK brokers are addressed by the pointer they were registered under", "statement": "register_broker returns a pointer no other registered broker uses, and unregistering one broker leaves the others reachable under their pointers.", "quantifier": "all histories of register and unregister", "why_tests_cant": "history dependent", "anchors": ["rosenpass/src/app_server.rs::AppServer::register_broker", "rosenpass/src/app_server.rs::AppServer::unregister_broker"]}
{"id": "C31", "title": "Application peers and protocol peers stay aligned", "statement": "AppServer::add_peer either succeeds with application and protocol peer lists of equal length or leaves both as they were, so a later add_peer does not panic.", "quantifier": "all configurations and resolver outcomes", "why_tests_cant": "error path in the middle of a two-list update", "anchors": ["rosenpass/src/app_server.rs::AppServer::add_peer"]}
{"id": "C32", "title": "A long running server tolerates occasional errors", "statement": "The event loop gives up only after more than ten consecutive failures.", "quantifier": "all sequences of successes and failures", "why_tests_cant": "unbounded run times", "anchors": ["rosenpass/src/app_server.rs::AppServer::event_loop"]}
{"id": "C33", "title": "The builder constructs the configured server", "statement": "Building a CryptoServer from a keypair and a list of peers succeeds exactly when the keypair is present and the peer ids are distinct, and gives each peer the position with_added_peer/add_peer announced for it.", "quantifier": "all keypairs and peer lists", "why_tests_cant": "all list lengths and duplicates", "anchors": ["rosenpass/src/protocol/build_crypto_server.rs::BuildCryptoServer"]}
{"id": "C34", "title": "A keypair is supplied to the running server at most once", "statement": "Over any sequence of supply_keypair API requests at most one is answered OK; after it every further one is answered KEYPAIR_ALREADY_SUPPLIED and the running server is never replaced; malformed key files are answered INVALID_REQUEST without effect.", "quantifier": "all request sequences and file contents", "why_tests_cant": "state machine over unbounded histories", "anchors": ["rosenpass/src/api/api_handler.rs::ApiHandler::supply_keypair", "util/src/build.rs::ConstructionSite"]}
{"id": "C35", "title": "API responses match API requests", "statement": "Every well-formed API request is dispatched by its 128-bit type to its own handler and answered with a response of the corresponding type and length; unknown types and short buffers are rejected; ping returns the echo unchanged.", "quantifier": "all byte strings", "why_tests_cant": "2^128 type codes", "anchors": ["rosenpass/src/api/boilerplate/server.rs", "rosenpass/src/api/boilerplate/message_type.rs", "rosenpass/src/api/boilerplate/request_ref.rs"]}
{"id": "C36", "title": "API connections stay associated with their I/O events", "statement": "Each accepted API connection keeps its slot for its life time and the I/O token registered for it leads back to it.", "quantifier": "all sequences of accepts and closes", "why_tests_cant": "history dependent", "anchors": ["rosenpass/src/api/mio/manager.rs::MioManager::add_connection"]}
{"id": "C37", "title": "Every API request on a connection is consumed", "statement": "Each complete request received on an API connection is handled once, and a request that is rejected does not block later ones.", "quantifier": "all byte streams", "why_tests_cant": "needs error path followed by further traffic", "anchors": ["rosenpass/src/api/mio/connection.rs::MioConnection"]}
{"id": "C38", "title": "Broker requests arrive unchanged", "statement": "For every key, peer id and interface name the privileged broker passes to its inner broker exactly the values given to set_psk by the client, and every server result maps back to the corresponding client result.", "quantifier": "all keys, ids, interface names up to 255 bytes", "why_tests_cant": "all byte strings", "anchors": ["wireguard-broker/src/api/client.rs", "wireguard-broker/src/api/server.rs", "wireguard-broker/src/api/msgs.rs"]}
{"id": "C39", "title": "Broker responses are matched to their requests", "statement": "A client that sends several set_psk requests reads one response per request, in order.", "quantifier": "all request sequences and chunkings", "why_tests_cant": "only shows from the second response on", "anchors": ["wireguard-broker/src/brokers/mio_client.rs::MioBrokerClient"]}
{"id": "C40", "title": "The broker pipeline does not wedge", "statement": "For every request sent to the privileged broker a response is produced, so the socket handler, which waits for one response per request, makes progress.", "quantifier": "all request byte strings", "why_tests_cant": "liveness over error paths", "anchors": ["wireguard-broker/src/bin/priviledged.rs", "wireguard-broker/src/bin/socket_handler.rs"]}
{"id": "C41", "title": "Secret memory is handed out zeroed", "statement": "Every Secret obtained from zero() contains only zero bytes regardless of what earlier secrets held, no two live secrets share storage, and a released secret's storage is zero.", "quantifier": "all histories of allocation, writing and release of all sizes", "why_tests_cant": "history dependent reuse", "anchors": ["secret-memory/src/secret.rs::SecretMemoryPool", "secret-memory/src/secret.rs::Secret"]}
{"id": "C42", "title": "The command line configuration parser is total", "statement": "For every argument list the `exchange` argument parser returns a configuration or an error, never panics, and every peer in the configuration has the public key that was given for it; giving both an endpoint and a preshared key for one peer is accepted.", "quantifier": "all argument lists", "why_tests_cant": "infinite input space", "anchors": ["rosenpass/src/config.rs::Rosenpass::parse_args"]}
{"id": "C43", "title": "Key generation never overwrites keys silently", "statement": "gen-keys without --force writes nothing if either target file exists; with success both files are written; the secret key file is private.", "quantifier": "all file system states and option combinations", "why_tests_cant": "file system state space", "anchors": ["rosenpass/src/cli.rs::CliArgs::run"]}
{"id": "C44", "title": "rp genkey is repeatable and crash safe", "statement": "rp genkey accepts an existing private key directory, never overwrites an existing key, and when it reports success all three key files exist and match.", "quantifier": "all directory states and crash points", "why_tests_cant": "crash points", "anchors": ["rp/src/key.rs::genkey"]}
{"id": "C45", "title": "Output keys bind their context", "statement": "If two sessions give the same output key although their chaining key or domain separator differ, then a collision of the keyed hash function is exhibited; in particular different output-key domain separators give different keys unless the hash collides.", "quantifier": "all sessions and domain separators", "why_tests_cant": "cryptographic binding is a statement about all inputs", "anchors": ["rosenpass/src/protocol/protocol.rs::CryptoServer::osk_with_domain_separator", "rosenpass/src/protocol/osk_domain_separator.rs"]}
{"id": "C46", "title": "A forged acknowledgement cannot block the genuine one", "statement": "An EmptyData message that does not authenticate leaves the server such that the genuine acknowledgement is still accepted.", "quantifier": "all states and packets", "why_tests_cant": "attacker injects before the genuine packet", "anchors": ["rosenpass/src/protocol/protocol.rs::CryptoServer::handle_resp_conf"]}
{"id": "C47", "title": "rp exchange arguments are parsed without loss", "statement": "For every argument list the rp command line parser terminates with a command or an error and never panics; the peers it returns are the ones given, in order.", "quantifier": "all argument lists", "why_tests_cant": "infinite input space", "anchors": ["rp/src/cli.rs::Cli::parse"]}
{"id": "C48", "title": "A retransmission repeats the last message sent", "statement": "retransmit_handshake succeeds exactly when the peer has a running initiator handshake, changes nothing, and hands out the last handshake message that was sent to this peer: an InitConf byte for byte, an InitHello except for its cookie field.", "quantifier": "all histories of calls, all peers and transmit buffers", "why_tests_cant": "the message was stored by an earlier call; arbitrary calls happen in between", "anchors": ["rosenpass/src/protocol/protocol.rs::CryptoServer::retransmit_handshake", "rosenpass/src/protocol/protocol.rs::IniHsPtr::apply_retransmission", "rosenpass/src/protocol/protocol.rs::IniHsPtr::store_msg_for_retransmission"]}
{"id": "C49", "title": "Hash domains are separated", "statement": "Every key, tag, identifier and output key is hashed under the label the protocol description gives for its purpose, starting from a root specific to the protocol version; two different label paths never give the same value unless a hash collision among exactly those evaluations is exhibited; the two directions of a session use the initiator and the responder key by role.", "quantifier": "all reachable servers, peers and sessions, all label paths, both hash versions", "why_tests_cant": "a label mixed up on both sides keeps all handshake tests green; separation is a statement about all inputs", "anchors": ["rosenpass/src/hash_domains.rs", "ciphers/src/hash_domain.rs::HashDomain", "rosenpass/src/protocol/protocol.rs::HandshakeState::init", "rosenpass/src/protocol/protocol.rs::HandshakeState::mix", "rosenpass/src/protocol/protocol.rs::CryptoServer::pidm"]}
{"id": "C50", "title": "The session secret is the hash of exactly the handshake transcript", "statement": "On both sides the secret of an established session is the chained hash of, in the documented order: the responder's public key, the initiator session id, the ephemeral key, every KEM ciphertext with its public key and shared secret, the encrypted peer id, the peer's identity with the pre-shared key, both session ids, the biscuit and all authentication tags, as these appear in the messages that were exchanged.", "quantifier": "all reachable states of both parties, all coins and clocks, arbitrary calls between the messages", "why_tests_cant": "an input that both sides forget to mix in leaves every handshake test green", "anchors": ["rosenpass/src/protocol/protocol.rs::CryptoServer::handle_initiation", "rosenpass/src/protocol/protocol.rs::CryptoServer::handle_init_hello", "rosenpass/src/protocol/protocol.rs::CryptoServer::handle_resp_hello", "rosenpass/src/protocol/protocol.rs::CryptoServer::handle_init_conf", "rosenpass/src/protocol/protocol.rs::HandshakeState"]}
{"id": "C51", "title": "An acknowledgement ends exactly the handshake it belongs to", "statement": "An EmptyData message is accepted only if it names the pending handshake of a peer after its RespHello, is sealed for this server, carries a counter not below the last one seen and authenticates under the session's receiving key; it then ends that handshake, so nothing is retransmitted any more, and changes no output key and no other peer.", "quantifier": "all reachable states and packets", "why_tests_cant": "packets may be replayed, reordered or forged in any state", "anchors": ["rosenpass/src/protocol/protocol.rs::CryptoServer::handle_resp_conf"]}
{"id": "C52", "title": "Codec positions and lengths can be set to anything without panics", "statement": "No sequence of calls on a length-prefix encoder or decoder, with whatever positions, lengths and counts, panics later: arguments out of bounds are refused with an error.", "quantifier": "all call sequences and arguments", "why_tests_cant": "infinitely many argument combinations and orders", "anchors": ["util/src/length_prefix_encoding/encoder.rs::LengthPrefixEncoder::set_msg_len_and_position", "util/src/length_prefix_encoding/decoder.rs::LengthPrefixDecoder::advance"]}
{"id": "C53", "title": "Blocking codec calls return when the stream stalls for good", "statement": "read_all_from_stdio reports UnexpectedEof when the source ends inside a message, and write_all_to_stdio reports an error when the writer accepts no more bytes; neither loops forever. Any other error of the stream, and a message announced to be longer than the buffer, ends the call at once with that error; interruptions do not.", "quantifier": "all messages, all points where the stream ends", "why_tests_cant": "non-termination cannot be observed by a test", "anchors": ["util/src/length_prefix_encoding/encoder.rs::LengthPrefixEncoder::write_all_to_stdio", "util/src/length_prefix_encoding/decoder.rs::LengthPrefixDecoder::read_all_from_stdio"]}
{"id": "C54", "title": "A RespHello is accepted once and only for the handshake it answers", "statement": "A RespHello is accepted only if it names the pending handshake of a peer, that handshake still waits for it, the message is sealed for this server and its tag authenticates under the chaining key of that handshake extended by the message; it is answered with an InitConf that repeats its ids and its biscuit, touches no other peer, and no further RespHello is accepted for that peer until the server initiates again.", "quantifier": "all reachable states, packets, and histories after the acceptance", "why_tests_cant": "an attacker may replay, reorder or modify packets arbitrarily", "anchors": ["rosenpass/src/protocol/protocol.rs::CryptoServer::handle_resp_hello", "rosenpass/src/protocol/protocol.rs::CryptoServer::handle_msg"]}
{"id": "C55", "title": "A negotiated key reaches the peer's own sinks, and no other", "statement": "Whenever the engine reports an exchange for a peer, the key it derives for that peer, and nothing else, goes to that peer's key file, to the line on standard output that names that peer, and to the broker registered for that peer; a key is written nowhere in any other turn, except a fresh random key with reason stale for a peer whose key has expired.", "quantifier": "all histories of peers added, datagrams, timer events, API requests and failing outputs", "why_tests_cant": "mixing up two peers, or losing a key when an earlier output fails, depends on the history", "anchors": ["rosenpass/src/app_server.rs::AppServer::output_key", "rosenpass/src/app_server.rs::AppServer::event_loop_without_error_handling", "rosenpass/src/app_server.rs::AppPeer::set_psk"]}
{"id": "C56", "title": "A peer's address changes only on an authenticated exchange or when its key is stale", "statement": "Datagrams that do not complete an exchange with a peer never change the address the server sends to; an exchange binds the peer to the source of that datagram, a stale key reopens the search among the bound and configured addresses, and packets are only sent to these or to the source of the datagram being answered.", "quantifier": "all histories and datagrams, from any source address", "why_tests_cant": "an attacker chooses source addresses and orders freely", "anchors": ["rosenpass/src/app_server.rs::AppServer::event_loop_without_error_handling", "rosenpass/src/app_server.rs::AppPeer::endpoint", "rosenpass/src/app_server.rs::Endpoint"]}
{"id": "C57", "title": "A peer whose address is known gets a handshake", "statement": "If the server knows an address of a peer and has no fresh key for it, it sooner or later sends it an InitHello.", "quantifier": "all histories in which the address becomes known at some point", "why_tests_cant": "liveness over unbounded histories", "anchors": ["rosenpass/src/app_server.rs::AppServer::tx_maybe_with", "rosenpass/src/protocol/protocol.rs::PeerPtr::poll"]}
{"id": "C58", "title": "No turn of the event loop panics", "statement": "Whatever datagrams, timers, requests and failures a turn of the event loop meets, it ends with a result or an error, never with a panic.", "quantifier": "all histories of the application server", "why_tests_cant": "panics hide in combinations of requests and failures", "anchors": ["rosenpass/src/app_server.rs::AppServer::event_loop_without_error_handling", "rosenpass/src/app_server.rs::AppServer::poll", "rosenpass/src/app_server.rs::AppPeer::set_psk"]}
{"id": "C59", "title": "Datagrams cannot stop the server", "statement": "No sequence of datagrams, from whatever sources, makes the event loop end; it fails only if the operating system fails to read, write or send what the server wants for its own peers.", "quantifier": "all sequences of datagrams and source addresses", "why_tests_cant": "an attacker chooses the sequence", "anchors": ["rosenpass/src/app_server.rs::AppServer::event_loop", "rosenpass/src/app_server.rs::AppServer::event_loop_without_error_handling"]}
{"id": "C60", "title": "Every datagram is handed over exactly once, in order", "statement": "The datagrams handed to the protocol engine from a socket are exactly those that arrived there, each once and in the order of arrival, whatever events are missed, spurious or interleaved and whatever fails in between; while one waits, receiving does not return empty-handed.", "quantifier": "all interleavings of arrivals (also during a call), signals, calls, spurious events and errors, any number of sockets, edge- and level-triggered readiness", "why_tests_cant": "the schedules of the operating system cannot be enumerated", "anchors": ["rosenpass/src/app_server.rs::AppServer::try_recv", "rosenpass/src/app_server.rs::AppServer::try_recv_from_listen_socket", "rosenpass/src/app_server.rs::AppServer::perform_mio_poll_and_register_events"]}
{"id": "C61", "title": "The server never sleeps while a datagram waits", "statement": "When the server blocks to wait for events, no datagram is waiting at any of its sockets.", "quantifier": "all interleavings of arrivals and calls", "why_tests_cant": "needs a datagram to arrive in a particular moment", "anchors": ["rosenpass/src/app_server.rs::AppServer::try_recv"]}
{"id": "C62", "title": "A flood at one socket does not starve another", "statement": "A datagram that waits at one socket is handed over after a bounded number of calls, whatever arrives at the others.", "quantifier": "all arrivals, unbounded", "why_tests_cant": "starvation needs an unbounded run", "anchors": ["rosenpass/src/app_server.rs::AppServer::try_recv"]}
{"id": "C63", "title": "Load detection", "statement": "Every half second the server decides anew whether it is under load: it is if more polls found work at once than had to wait, or if there was no poll at all because there was always work left; in between the status does not change. A flood is noticed within one period.", "quantifier": "all histories of arrivals and calls, any clock readings", "why_tests_cant": "depends on counts over unbounded histories", "anchors": ["rosenpass/src/app_server.rs::AppServer::try_recv"]}
{"id": "C64", "title": "Datagrams reach the engine unchanged", "statement": "Every datagram the server receives while it has a keypair is given to the handshake engine once and unchanged; as a message under load, with the identifier of the receiving socket and the sender's address, exactly when the server was found to be under load. The engine is given nothing else from the network.", "quantifier": "all histories of the server, all datagrams, sockets, addresses and load decisions", "why_tests_cant": "a mix-up of socket, address or load status shows only for particular combinations", "anchors": ["rosenpass/src/app_server.rs::AppServer::event_loop_without_error_handling", "rosenpass/src/app_server.rs::AppServer::handle_msg"]}
{"id": "C65", "title": "Termination signals", "statement": "A termination signal ends the server within as many receive calls as events were already reported, however many datagrams arrive; and the server ends only on such a signal.", "quantifier": "all histories of arrivals, signals and calls, both kinds of readiness", "why_tests_cant": "a lost or delayed signal depends on the schedule", "anchors": ["rosenpass/src/app_server.rs::AppServer::try_recv", "rosenpass/src/app_server.rs::AppServer::try_recv_from_signal_handler"]}
{"id": "C66", "title": "An API client cannot stop the service", "statement": "A request that cannot be handled, a message that is too long, a client that goes away or a socket that fails costs the server at most one failing poll of that connection, after which the connection is closed or usable again; a connection whose client has gone is closed.", "quantifier": "all byte streams, all behaviours of the socket, any number of polls", "why_tests_cant": "needs every kind of failure at every point of an exchange, followed by arbitrarily many polls", "anchors": ["rosenpass/src/api/mio/connection.rs::MioConnection::poll", "rosenpass/src/api/mio/connection.rs::MioConnection::should_close", "rosenpass/src/api/mio/manager.rs::MioManager::poll_particular_connection", "rosenpass/src/app_server.rs::AppServer::event_loop"]}
{"id": "C67", "title": "A key handed to the broker is written out", "statement": "When set_psk of the broker client returns successfully, the request has been written to the broker's socket as far as the socket takes it, without waiting for a later poll.", "quantifier": "all histories of calls and polls, all behaviours of the socket", "why_tests_cant": "depends on how much each write takes", "anchors": ["wireguard-broker/src/brokers/mio_client.rs::MioBrokerClientIo::send_msg", "wireguard-broker/src/brokers/mio_client.rs::MioBrokerClientIo::flush"]}
{"id": "C68", "title": "Key files hold what was stored", "statement": "A key that was stored, as raw bytes or as Base64 text, is read back unchanged; a file that does not hold a key of exactly the right size is rejected; a file created for a secret is readable and writable by its owner only, from its creation on; storing a key touches no other file.", "quantifier": "all keys, file contents, file system states and points where writing stops", "why_tests_cant": "all contents and sizes, and every point where writing can stop", "anchors": ["util/src/file.rs::LoadValue", "util/src/file.rs::StoreValue", "util/src/file.rs::StoreSecret", "secret-memory/src/secret.rs", "secret-memory/src/public.rs", "util/src/b64.rs"]}
{"id": "C69", "title": "A checked configuration can be run", "statement": "`rosenpass validate` says of a configuration file whether it can be read and parsed and whether its keys, endpoints, outputs and domains are usable; it changes no file; a configuration that it refuses cannot be run; one that it accepts can be run; the command's exit status tells whether all files were accepted.", "quantifier": "all configuration files and file system states", "why_tests_cant": "all configurations and all states of the files they name", "anchors": ["rosenpass/src/config.rs::Rosenpass::validate", "rosenpass/src/cli.rs::CliArgs::run"]}
{"id": "C70", "title": "rp pubkey exports public keys only", "statement": "`rp pubkey` writes the WireGuard public key that belongs to the WireGuard secret key and the unchanged Rosenpass public key to a directory that did not exist, writes nothing else, changes no file that existed, and what it writes does not depend on the secret keys except through their public keys; if it fails it can be run again.", "quantifier": "all file system states, keys and points where writing stops", "why_tests_cant": "every point where writing can stop, all keys", "anchors": ["rp/src/key.rs::pubkey"]}
{"id": "C71", "title": "rp exchange sets up what was asked for", "statement": "When `rp exchange` runs, the network device was created and configured with the key, port and address asked for, the server has the keys from the key directory, listens where asked and has exactly the peers asked for in order, each with its public key, preshared key, endpoint, keepalive and allowed networks; WireGuard uses the port behind the one Rosenpass uses; each allowed network is routed to the device. If all files are there and nothing goes wrong it runs. A configuration file does the same as the command line; no option makes the program panic.", "quantifier": "all options, configuration files, file system states and failures of the system", "why_tests_cant": "all combinations of options and failures", "anchors": ["rp/src/exchange.rs::exchange", "rp/src/main.rs"]}
{"id": "C72", "title": "rp exchange leaves other network devices alone and removes its own", "statement": "`rp exchange` does nothing to a network device that existed before, nor to any device but the one it was told to create, and a device that it has created is removed when it ends.", "quantifier": "all options and failures at each step", "why_tests_cant": "failures at each step", "anchors": ["rp/src/exchange.rs::WireGuardDeviceImpl::open", "rp/src/exchange.rs::WireGuardDevice::drop", "rp/src/exchange.rs::exchange"]}
{"id": "C73", "title": "Keys reach wg for the right peer and unseen", "statement": "The broker that calls `wg` names the interface and the peer whose key it is and passes the key through standard input, in Base64; no argument depends on the key; it reports success only if `wg` has taken the key.", "quantifier": "all interfaces, peers, keys, further parameters and behaviours of wg", "why_tests_cant": "all keys and all ways in which the program called can fail", "anchors": ["wireguard-broker/src/brokers/native_unix.rs::NativeUnixBroker::set_psk"]}
{"id": "C74", "title": "Cleanup jobs are finished before the janitor is left", "statement": "Every cleanup job scheduled from within a janitor is taken, and enter_janitor returns the future's result only after all of them have ended; it does return once the future and the jobs have ended; a failed job is reported. has_active_janitor tells whether there is a janitor.", "quantifier": "all interleavings of the future, the jobs and the janitor's own tasks, all outcomes of jobs", "why_tests_cant": "all schedules of asynchronous tasks", "anchors": ["util/src/tokio/janitor.rs::enter_janitor", "util/src/tokio/janitor.rs::spawn_cleanup_job", "util/src/tokio/janitor.rs::has_active_janitor"]}
{"id": "C75", "title": "Equal output keys mean matching conversations", "statement": "If two completed handshakes give the same output key, then one side was the initiator and the other the responder of one conversation: each is the other's configured peer, with the same pre-shared key, version and labels, and each received the messages the other sent (up to seals and reserved bytes). Two sessions entered in the same role never share a key unless they are the same handshake. The only escape is a collision of the hash function among the evaluations of these handshakes.", "quantifier": "all pairs of servers, peers, handshakes, histories in between and primitives", "why_tests_cant": "quantifies over all handshakes of all servers and over an attacker's messages", "anchors": ["rosenpass/src/protocol/protocol.rs::CryptoServer::handle_resp_hello", "rosenpass/src/protocol/protocol.rs::CryptoServer::handle_init_conf", "rosenpass/src/protocol/protocol.rs::HandshakeState::mix", "rosenpass/src/protocol/protocol.rs::CryptoServer::osk"]}
{"id": "C76", "title": "Handshakes that cross end in one key", "statement": "If both servers initiate a handshake at the same time and every message is delivered, both have the same output key in the end.", "quantifier": "all pairs of servers that know each other and all interleavings of two handshakes between them", "why_tests_cant": "all interleavings of two concurrent handshakes", "anchors": ["rosenpass/src/protocol/protocol.rs::CryptoServer::handle_init_conf", "rosenpass/src/protocol/protocol.rs::CryptoServer::handle_resp_hello"]}
{"id": "C77", "title": "A server runs as its configuration file says", "statement": "Starting `rosenpass exchange-config` changes no file, and a server that starts has exactly the keys, addresses and peers of the configuration file: the peers in order with their public key, preshared key, key file, endpoint, WireGuard device, protocol version and output key domain. In the names of key files `~` and `~/...` stand for the home directory; every other name means itself.", "quantifier": "all configuration files, file system states and home directories", "why_tests_cant": "all configurations, all states of the files they name and all paths", "anchors": ["rosenpass/src/config.rs::Rosenpass::load", "rosenpass/src/config.rs::resolve_path_with_tilde", "rosenpass/src/cli.rs::CliArgs::event_loop"]}
{"id": "C78", "title": "Encryption over the caller's buffers is exact and gives out nothing that does not authenticate", "statement": "Encrypting into a buffer of 16 bytes more than the plaintext (plus the nonce, where it is sent along) and decrypting gives the plaintext back; a buffer decrypts only if it is exactly what encrypting the result gives; when decryption fails the caller's buffer has no byte of a decrypted text; buffers of wrong lengths are refused with an error and without a panic.", "quantifier": "all plaintexts, ciphertexts, keys, nonces, additional data, buffers of all lengths and contents", "why_tests_cant": "all combinations of lengths and contents", "anchors": ["ciphers/src/subtle/rust_crypto/chacha20poly1305_ietf.rs", "ciphers/src/subtle/rust_crypto/xchacha20poly1305_ietf.rs", "cipher-traits/src/primitives/aead.rs::AeadWithNonceInCiphertext"]}
{"id": "C79", "title": "Breaking the keyed hashes or the agreement of handshakes means breaking Blake2b or SHAKE256", "statement": "From two different inputs of a keyed hash with the same result, of the same or of the two different keyed hashes, one gets two different inputs of the keyed Blake2b or SHAKE256 of the libraries with the same result. So two servers with the same output key are each other's configured peers and saw the same messages, unless the two handshakes evaluated the libraries' hashes to such a collision (or to zero).", "quantifier": "all libraries, keys of 32 bytes, data, servers and handshakes", "why_tests_cant": "all inputs of hash functions", "anchors": ["ciphers/src/subtle/custom/incorrect_hmac_blake2b.rs", "ciphers/src/subtle/rust_crypto/keyed_shake256.rs", "ciphers/src/subtle/keyed_hash.rs::KeyedHash"]}
{"id": "C80", "title": "Copying to a destination writes the source and nothing else", "statement": "Each copy operation puts the source at the front of the destination and leaves the rest as it was (the one that copies what fits puts as much as fits); the operations that can fail report it exactly when there is no room (or the lengths differ) and then change nothing; the others panic then.", "quantifier": "all sources and destinations", "why_tests_cant": "all lengths and contents", "anchors": ["to/src/ops.rs"]}
{"id": "C81", "title": "Claiming a file descriptor takes the file and leaves no second way to it", "statement": "Claiming a descriptor gives a new descriptor of at least 3 for the same file that is not inherited by started programs, and leaves /dev/null under the old number; claiming in place keeps the number; no other descriptor changes. If any system call fails, claiming leaves everything as it was (in place: closes the descriptor). Numbers that are no descriptors of the caller are refused with an error.", "quantifier": "all descriptor tables, numbers, limits and failures of system calls", "why_tests_cant": "failures at every system call and all states of the table", "anchors": ["util/src/fd.rs::claim_fd", "util/src/fd.rs::claim_fd_inplace", "util/src/fd.rs::mask_fd"]}
{"id": "C82", "title": "The API is served at exactly the configured sources", "statement": "A server that starts listens for API connections at the paths and descriptors of the configuration file and then of the command line and has the configured connections; each is the file that was named; wrong descriptors are refused and no descriptor of the server itself is touched.", "quantifier": "all configurations, command lines, descriptor tables and failures of system calls", "why_tests_cant": "all combinations of sources and states of the table", "anchors": ["rosenpass/src/api/config.rs::ApiConfig::apply_to_app_server", "rosenpass/src/api/cli.rs::ApiCli::apply_to_api_config", "util/src/mio/mio.rs::UnixListenerExt", "util/src/mio/mio.rs::UnixStreamExt"]}
{"id": "C83", "title": "Descriptors sent over a socket arrive once and in order", "statement": "However the data is cut into writes and whatever the socket accepts or refuses, the descriptors go over the socket in order, each exactly once, at least one byte with them and at most 253 in a message, and the bytes are those reported as written. Writing a whole message sends all descriptors.", "quantifier": "all queues, data, sequences of writes and behaviours of the socket", "why_tests_cant": "all histories of short and failing writes", "anchors": ["util/src/mio/uds_send_fd.rs::WriteWithFileDescriptors"]}
{"id": "C84", "title": "Receiving descriptors leaks none", "statement": "A read that succeeds appends the descriptors that came with it to the queue in order, up to the limit of the queue, not inherited by started programs; a read that fails at any point leaves the queue and the table of descriptors as they were.", "quantifier": "all queues, limits, descriptor tables, messages and failures of system calls", "why_tests_cant": "failures at every point of the loop", "anchors": ["util/src/mio/uds_recv_fd.rs::ReadWithFileDescriptors"]}
{"id": "C85", "title": "A constant has the value of its type-level number", "statement": "A type-level integer that is turned into a constant of a primitive integer type has the same value, or the program does not compile.", "quantifier": "all type-level integers and all primitive integer types of Rust", "why_tests_cant": "the numbers and types are unbounded in combination, and numbers at and past the limits of a type must be covered", "anchors": ["util/src/typenum.rs::IntoConst", "util/src/typenum.rs::typenum2const"]}
{"id": "C86", "title": "Keys in documents", "statement": "A secret or public value that is written to a document (JSON, TOML, ...) is written as Base64 and read back as it was; a document is accepted only if it has exactly that text and the value has exactly the size wanted.", "quantifier": "all values of all sizes and all documents", "why_tests_cant": "it must hold for every text, including non-canonical Base64", "anchors": ["secret-memory/src/serialization.rs::Secret::deserialize", "secret-memory/src/serialization.rs::Public::deserialize", "secret-memory/src/serialization.rs::PublicBox::deserialize"]}
{"id": "C87", "title": "The policy for secret memory is kept", "statement": "Once a policy has been chosen, it stays; every secret has memory of the chosen kind, which is aligned, is given back to the allocator it came from, once, and of which none is lost; without a policy there is no secret; another policy is refused, and choosing the same one again changes nothing.", "quantifier": "all histories of policies, allocations that succeed or fail, and drops, in all threads", "why_tests_cant": "histories and failures of allocation are unbounded", "anchors": ["secret-memory/src/policy.rs::secret_policy_try_use_memfd_secrets", "secret-memory/src/alloc/mod.rs::SecretAlloc", "secret-memory/src/alloc/memsec/malloc.rs::MallocAllocator", "secret-memory/src/alloc/memsec/memfdsec.rs::MemfdSecAllocator"]}
{"id": "C88", "title": "Messages are set up where they are asked for", "statement": "Setting up a response in a buffer, at its start or at its end makes exactly the bytes there a response with an empty payload, changes no other byte, and refuses a buffer that is too small; values are parsed from exactly the place that is asked for.", "quantifier": "all buffers, sizes and kinds of messages", "why_tests_cant": "buffers are unbounded; errors at the edges concern bytes the test does not look at", "anchors": ["rosenpass/src/api/boilerplate/request_response.rs::RequestMsg", "util/src/zerocopy/ref_maker.rs::RefMaker", "util/src/zerocopy/zerocopy_slice_ext.rs::ZerocopySliceExt"]}
{"id": "C89", "title": "Debug output", "statement": "Debug output does not depend on secrets, tells public values of up to 64 bytes apart, and shows no more than 64 bytes of longer ones.", "quantifier": "all values", "why_tests_cant": "two values with the same output are unlikely to be found by tests", "anchors": ["secret-memory/src/debug.rs::debug_crypto_array", "secret-memory/src/secret.rs::Secret::fmt", "util/src/fmt/debug.rs::NullDebug"]}
{"id": "C90", "title": "Secrecy of the initiator's keys", "statement": "When a handshake has finished at its initiator, an attacker who controls the network, runs peers of its own and may be given any other values knows neither the chaining key nor any output key it was not given, provided that the responder's static secret key and the coins of the encapsulation to it were not given to it, or the pre-shared key was not, and no biscuit of that session was sealed under a biscuit key it was given. The initiator's own static key may be lost.", "quantifier": "all configurations, all numbers of agents and handshakes, all interleavings, all attacker messages, all sets of values the attacker is given and all output key labels, over symbolic terms", "why_tests_cant": "tests run the protocol without an attacker", "anchors": ["rosenpass/src/protocol/protocol.rs: CryptoServer::handle_initiation", "CryptoServer::handle_init_hello", "CryptoServer::handle_resp_hello", "HandshakeState::store_biscuit", "CryptoServer::osk_with_domain_separator"]}
{"id": "C91", "title": "Agreement", "statement": "When an initiator accepts a RespHello while the responder's static key or the pre-shared key is safe, that responder has made this message in answer to the InitHello of this handshake, for the same public and pre-shared keys. When a responder accepts an InitConf under a safe biscuit key, it has sealed the biscuit itself, and if the initiator's static key or the pre-shared key is safe, that initiator has accepted the matching RespHello with the same keys and has the same chaining key. When an initiator accepts EmptyData, the responder has accepted its InitConf and has the same chaining key.", "quantifier": "all configurations, runs and attackers as in C90; the conditions are only about the time before the message is accepted", "why_tests_cant": "tests run the protocol without an attacker", "anchors": ["rosenpass/src/protocol/protocol.rs: CryptoServer::handle_resp_hello", "CryptoServer::handle_init_conf", "CryptoServer::handle_resp_conf", "HandshakeState::load_biscuit"]}
{"id": "C92", "title": "Secrecy of the responder's keys", "statement": "When a handshake has finished at its responder and the biscuit key was not given to the attacker, the attacker knows neither the chaining key nor any output key it was not given, provided that the initiator's static secret key and the coins of the encapsulation to it, or the pre-shared key, were not given to it. Without the condition on the biscuit key the attacker can pass as any peer.", "quantifier": "all configurations, runs and attackers as in C90", "why_tests_cant": "tests run the protocol without an attacker", "anchors": ["rosenpass/src/protocol/protocol.rs: CryptoServer::handle_init_conf", "HandshakeState::load_biscuit", "HandshakeState::store_biscuit"]}
{"id": "C93", "title": "Forward secrecy", "statement": "Keys of a handshake that was accepted while the peer was authentic stay unknown to the attacker when it is later given all static secret keys and pre-shared keys, all other biscuit keys and all other ephemeral keys, as long as it is not given the ephemeral key of that handshake, the coins of the encapsulation to it, or the biscuit key that sealed its biscuit.", "quantifier": "all configurations, runs and attackers as in C90; all points of time of the loss of keys after acceptance", "why_tests_cant": "tests run the protocol without an attacker", "anchors": ["rosenpass/src/protocol/protocol.rs: CryptoServer::handle_resp_hello", "CryptoServer::handle_init_conf", "HandshakeState::store_biscuit"]}
{"id": "C94", "title": "The messages and keys of the symbolic handshake", "statement": "Every message and key that the handshake of C90 to C93 computes stands, with all primitives evaluated, for exactly the bytes the protocol functions compute from the same coins, keys and received bytes, and what is accepted there is accepted by the protocol functions.", "quantifier": "all correct primitives, all values of keys and coins, all servers, peers and messages", "why_tests_cant": "a test compares single executions", "anchors": ["rosenpass/src/protocol/protocol.rs: CryptoServer::handle_initiation", "CryptoServer::handle_init_hello", "CryptoServer::handle_resp_hello", "CryptoServer::handle_init_conf", "HandshakeState::enter_live"]}
{"id": "C95", "title": "Servers follow the symbolic handshake", "statement": "However any number of servers are called, with messages an attacker can make from what it has seen, each call of a server is a step of the symbolic handshake of C90 to C93: it adds at most one event, an event of this server with the random values of this call that uses the received message, and every message sent is that of an event of the run (or a cookie reply). Every session of every server has the key of a handshake finished in the run. The only conditions are that configured keys and drawn values have names, that random values are not used twice, and that the received message holds no forged ciphertext and no collision of a peer id.", "quantifier": "all correct primitives, all names and configurations, any number of servers, all interleavings of all API calls with all arguments, all states reached, all points of time at which keys are given to the attacker", "why_tests_cant": "tests run two servers on a few interleavings without an attacker", "anchors": ["rosenpass/src/protocol/protocol.rs: CryptoServer::handle_msg", "CryptoServer::handle_msg_under_load", "CryptoServer::initiate_handshake", "CryptoServer::retransmit_handshake", "CryptoServer::poll", "CryptoServer::add_peer"]}
{"id": "C96", "title": "Secrecy and agreement of output keys of running servers", "statement": "In every history of servers as in C95: if for a peer the pre-shared key, or the peer's secret key and coins of encapsulations, were not given to the attacker, and no biscuit key was, then an output key a server hands out for this peer is not known to the attacker unless it was given this very key; the peer's public key belongs to a server that took part, that has this server configured with the same pre-shared key and that answered this very handshake or has the same session key; and when static and pre-shared keys are lost later the session's keys stay secret.", "quantifier": "as C95; all sessions, in both roles, of all servers; all histories after", "why_tests_cant": "tests run two servers on a few interleavings without an attacker", "anchors": ["rosenpass/src/protocol/protocol.rs: CryptoServer::osk", "CryptoServer::handle_msg", "CryptoServer::initiate_handshake", "Session"]}
{"id": "C97", "title": "Secrets of a server are not given away", "statement": "No sequence of messages makes a server give away its static secret key, a pre-shared key, a biscuit key, an ephemeral secret key or the coins of an encapsulation: the attacker knows such a value only if it was given this value. The same holds for a secret encapsulated by one server for another, unless the secret key or the coins were given.", "quantifier": "all histories as in C95, all servers, peers and slots for biscuit keys", "why_tests_cant": "tests look at single messages", "anchors": ["rosenpass/src/protocol/protocol.rs: CryptoServer::handle_msg", "CryptoServer::initiate_handshake", "HandshakeState::store_biscuit", "HandshakeState::encrypt_and_mix"]}
{"id": "C98", "title": "A session key has two ends", "statement": "Two sessions with the same key and the same role belong to the same server and the same peer entry, and to the same handshake; two with different roles belong to two servers that have each other as peers, with the same pre-shared key and hash, and that exchanged the same messages. So no key is shared with a third server, and no server is misled about whom it shares the key with.", "quantifier": "all histories as in C95 in which no biscuit key was given to the attacker; all pairs of sessions of all servers; no condition on static or pre-shared keys", "why_tests_cant": "tests run two servers; a misbinding attack needs more parties and an attacker", "anchors": ["rosenpass/src/protocol/protocol.rs: HandshakeState::mix", "CryptoServer::handle_resp_hello", "CryptoServer::handle_init_conf", "CryptoServer::pidm"]}
{"id": "C99", "title": "A key is taken once at each end", "statement": "In every history of any number of servers, one InitConf completes at most one handshake of one server, whatever is repeated and whichever biscuit key and hash function the server tries, and a server takes at most one RespHello for one InitHello. So no two completed handshakes of responders have the same session key, nor two of initiators; and if the biscuit keys and the keys of the peer entries are in order, different completed handshakes of responders belong to different handshakes of initiators with those keys, and different handshakes of initiators belong to different answers of responders.", "quantifier": "every history of calls of any number of servers, every choice of messages an attacker can make including repetitions, every set of values given to the attacker", "why_tests_cant": "tests repeat one message at one server; replay across handshakes, keys and peers is about all histories", "anchors": ["rosenpass/src/protocol/protocol.rs: CryptoServer::handle_init_conf", "CryptoServer::handle_resp_hello", "CryptoServer::load_biscuit", "Peer::biscuit_used"]}
{"id": "C100", "title": "Biscuits and cookies are good for a limited time", "statement": "After a poll a server has no biscuit key that was 600 s old at that time, whatever is called later, so no InitConf with a biscuit sealed by such a key completes an exchange. Under load an InitHello is answered only if its cookie is of a secret younger than 240 s. The secret changes every 120 s, and an initiator uses a cookie for at most 120 s.", "quantifier": "every reachable server, every poll, every sequence of calls after it, every InitConf and every InitHello", "why_tests_cant": "tests do not run for ten minutes and not over all sequences of calls", "anchors": ["rosenpass/src/protocol/protocol.rs: Mortal for BiscuitKeyPtr", "CryptoServer::poll", "CryptoServer::active_or_retired_cookie_secrets", "Mortal for PeerCookieValuePtr", "rosenpass/src/protocol/constants.rs: BISCUIT_EPOCH, COOKIE_SECRET_EPOCH, PEER_COOKIE_VALUE_EPOCH", "papers/whitepaper.md: Envelope cookie field"]}
{"id": "C101", "title": "A broker gets its end of the connection and ends with rosenpass", "statement": "At most one way to the broker can be asked for, and that one is used. A connection made by a path or handed over by number is not passed on to any program started later. A broker that rosenpass starts finds the other end of the connection at descriptor 3 and gets no descriptor of rosenpass that is marked close-on-exec, nor rosenpass's own end; when there is no connection, no process and no descriptor of the attempt is left. When rosenpass ends, the broker meets the end of its connection and ends, and so does the privileged process behind it.", "quantifier": "all option combinations, all descriptor tables, all failures of system calls, all histories of the three processes", "why_tests_cant": "Which numbers are free, which call fails and in which order the processes claim, start and end is up to the system; a test sees one layout.", "anchors": ["rosenpass/src/cli.rs: CliArgs::get_broker_interface, CliCommand::create_broker, CliCommand::get_broker_socket", "rosenpass/src/main.rs: main", "wireguard-broker/src/bin/socket_handler.rs: main, direct_broker_process"]}
{"id": "C102", "title": "Interruptions and short reads are not seen", "statement": "A system call that a signal interrupts is made again until it gives something else, and not once more after that; what it gives then is what the caller sees, except that a non-blocking call that would have to wait reports that there is nothing. A key that is read from a file or a descriptor is accepted if and only if it has the right length, in whatever pieces it arrives and whatever is interrupted. A wait for events takes no longer than the time asked for, and each event is kept once and in order.", "quantifier": "every sequence of results of the system calls, every source and buffer, every cutting of the source into pieces, every time limit", "why_tests_cant": "unit tests read from memory, where everything comes in one piece and nothing is ever interrupted", "anchors": ["util/src/io.rs: handle_interrupted, nonblocking_handle_io_errors, substitute_for_ioerr_kind_with, read_exact_til_end", "util/src/file.rs: read_slice_to_end, read_exact_to_end", "rosenpass/src/app_server.rs: perform_mio_poll_and_register_events"]}
{"id": "C103", "title": "What the configuration says about WireGuard is what wg is told", "statement": "For every WireGuard device, peer and list of further parameters in the configuration of a peer and every key of 32 bytes, the command `wg` that rosenpass runs gets exactly that device, the same text of the peer and the same parameters in the same order, each as one argument, and the key on its standard input; with a broker behind a socket, device, peer and key arrive unchanged. A peer that is not the Base64 text of 32 bytes is refused at start.", "quantifier": "all devices, peers, lists of parameters of any number and length, keys, and what follows the encoded parameters", "why_tests_cant": "the parameters are encoded as bytes and decoded again, and all lengths cross the boundaries of a variable-length encoding; a test has a few lists only", "anchors": ["rosenpass/src/cli.rs: event_loop", "wireguard-broker/src/brokers/native_unix.rs: peer_id_b64, extra_params_ser, create_config, try_from, set_psk", "wireguard-broker/src/api/config.rs: from, try_from", "util/src/b64.rs: b64_decode"]}
{"id": "C104", "title": "Configuration files are understood as they are written", "statement": "A configuration file that is accepted gives exactly the keys, addresses, verbosity, API sources and peers that its tables state, with the documented defaults for what is absent; a file with an undocumented setting, without a required one or with a value of the wrong type is refused; and what the program writes it reads back unchanged. The same holds for the configuration files of rp. (It does not hold for an incomplete or ill-typed key pair or WireGuard section: those settings are silently ignored.)", "quantifier": "all tables, all settings and values in them, all configurations that can be written", "why_tests_cant": "A test parses a few literal files; whether any unexpected combination of settings is dropped silently needs all tables.", "anchors": ["rosenpass/src/config.rs: Rosenpass, Keypair, RosenpassPeer, RosenpassPeerOskDomainSeparator, WireGuard, Verbosity, ProtocolVersion, EXAMPLE_CONFIG", "rosenpass/src/api/config.rs: ApiConfig", "rp/src/exchange.rs: ExchangePeer, ExchangeOptions"]}
{"id": "C105", "title": "A saved configuration starts the same server", "statement": "If `exchange ... --config-file F` starts a server, then `exchange-config F` later starts the same server: the same keys, addresses and peers. (It does not hold if a path begins with `~/`: the first command takes it literally, the second as the home directory.)", "quantifier": "all command lines, files, paths and states of the file system", "why_tests_cant": "A round trip of one command line says nothing about other settings or about paths that mean something else when they are read from a file.", "anchors": ["rosenpass/src/cli.rs: CliArgs::run (Exchange, ExchangeConfig)", "rosenpass/src/config.rs: Rosenpass::parse_args, store, load, resolve_path_with_tilde"]}
{"id": "C106", "title": "Lost messages delay a handshake and do not change its outcome", "statement": "Two honest servers configured for each other exchange a handshake over a network that loses messages. If the responder gets, in place of the InitHello or the InitConf, any retransmission handed out by the initiator for that message, and the initiator gets, in place of the first EmptyData, the responder's answer to a later retransmission of an InitConf the responder had already accepted, the handshake ends as it would have without loss: the same five results, the same output key on both sides, and the initiator has nothing left to retransmit.", "quantifier": "all primitives that are correct, all reachable states of the two servers (so also any number of earlier copies of the InitHello whose RespHello was lost), all histories of other calls in between, all random draws, times and transmit buffers, any number of retransmissions of each message", "why_tests_cant": "a test loses a few chosen messages in one schedule; the claim is for every combination of losses and every interleaving with other calls", "anchors": ["rosenpass/src/protocol/protocol.rs: CryptoServer::initiate_handshake, retransmit_handshake, handle_msg, KnownInitConfResponsePtr::lookup_response_for_request_msg"]}
{"id": "C107", "title": "The options about logging set the documented log level", "statement": "With --log-level L, exactly the messages of level L and of more severe levels are logged; --verbose stands for L = debug and --quiet for L = error, as the manual says. Without any of them the environment variable RUST_LOG decides, and without that variable only errors are logged.", "quantifier": "all combinations of the options, all values of RUST_LOG, all modules and levels of messages", "why_tests_cant": "the levels, the contents of RUST_LOG and the modules combine; a test looks at single lines of output", "anchors": ["rosenpass/src/cli.rs: CliArgs, CliArgs::get_log_level", "rosenpass/src/main.rs: main"]}
{"id": "C108", "title": "The exit status tells whether the program did what it was asked to do", "statement": "rosenpass and rp end with status 0 exactly if the command they were given succeeded, and with a status above 0 otherwise (as the manual of rosenpass says); if the arguments make no sense, no file and no network device is touched. So after `rosenpass gen-keys` or `rp genkey` with status 0 the keys are in their files.", "quantifier": "all arguments, all states of the file system, all ways in which system calls fail or writes are cut off, all outcomes of the commands", "why_tests_cant": "tests run a few commands that succeed and look at few failures; the claim is for every point where a command can fail", "anchors": ["rosenpass/src/main.rs: main", "rosenpass/src/cli.rs: CliArgs::run", "rp/src/main_supported_platforms.rs: main, main_impl"]}
{"id": "C109", "title": "Both ends hand out the same key", "statement": "When two rosenpass servers configured for each other run an exchange and their four datagrams arrive, each of them writes a key to its peer's key file, announces it on standard output and gives it to the peer's WireGuard broker (as far as configured), and it is the same key at both ends; the announcements name the other server's public key. In these turns of the event loop nothing else is written or handed over, and the only datagrams sent are the answers, to the address and through the socket the datagram came by.", "quantifier": "every pair of states of two servers, every setting of clocks and random draws, every history of turns of the event loop in between that leaves the handshake pending, every configuration of key files and brokers", "why_tests_cant": "Tests run one exchange between two fresh servers; that the keys handed out agree after any history of the two event loops, with other peers, retransmissions, timeouts and API requests in between, needs the whole state space.", "anchors": ["rosenpass/src/app_server.rs: AppServer::event_loop_without_error_handling, output_key, tx_maybe_with", "rosenpass/src/protocol/protocol.rs: CryptoServer"]}
{"id": "C110", "title": "Others cannot stop a handshake", "statement": "Somebody who can drop, delay, repeat, change and inject messages but has none of the keys of the two servers cannot stop a handshake between them by what they send. A handshake that waits for its RespHello is left as it is by every message that is delivered, except the peer's own answer to it and the InitConf of a handshake that the peer itself made. And the InitConf of the handshake an initiator started last is accepted by the responder when it arrives, with the initiator's key, whatever was delivered to the two servers before.", "quantifier": "every number of servers, every history of their calls and of the messages delivered to them by an attacker who sees all messages and can compute everything that can be computed from them, every number of handshakes running side by side", "why_tests_cant": "Tests inject a handful of broken messages; the claim is about every message an attacker can make out of everything sent so far, at every point of every interleaving.", "anchors": ["rosenpass/src/protocol/protocol.rs: CryptoServer::handle_msg, handle_resp_hello, handle_init_conf, load_biscuit, store_biscuit", "papers/whitepaper.md: biscuits, retransmission"]}
{"id": "C111", "title": "Listening does not help, even with all long-term keys", "statement": "Somebody who has the static secret keys and the pre-shared keys of both servers, from before the handshake on, and only listens does not learn the keys that come out of a handshake: as long as the messages each side accepts are the ones the other side sent, and the ephemeral secrets of this handshake and the responder's biscuit key stay secret, the output keys are secret at both ends. Both ends then also have the same key.", "quantifier": "every number of servers, every history of their calls and of messages an attacker delivers to them, every set of long-term keys given to the attacker at any time, every handshake in such a history", "why_tests_cant": "Tests cannot quantify over what an eavesdropper can compute from everything it has seen and been given.", "anchors": ["rosenpass/src/protocol/protocol.rs: CryptoServer::initiate_handshake, handle_init_hello, handle_resp_hello, handle_init_conf", "papers/whitepaper.md: secrecy"]}
{"id": "C112", "title": "Descriptors are taken only for what they are", "statement": "A file descriptor that comes with an API request is taken for a UDP socket only if it is a socket of the protocol UDP, and for the connection to a broker only if it is a Unix stream socket; anything else is answered \"invalid request\" and changes nothing. The functions that tell what kind of socket a descriptor is never answer wrongly: each yes and each no is true, and a refusal names what the socket really is.", "quantifier": "all descriptors, all answers and refusals of the system, all requests and states of the server", "why_tests_cant": "A test has the few kinds of descriptors it opens; the claim is about every socket domain, type and protocol and about each system call failing", "anchors": ["util/src/fd.rs: StatExt, TryStatExt, GetSocketType, GetSocketDomain, GetUnixSocketType, GetSocketProtocol", "rosenpass/src/api/api_handler.rs: add_listen_socket, add_psk_broker", "util/src/mio/mio.rs: from_fd"]}
{"id": "C113", "title": "The numbers of the API messages are the hashes of their names", "statement": "The program that generates the numbers of the API message types prints one literal for each leaf of its tree of names: the first 16 bytes of the hash over the names on the path. The eight numbers in the source, which clients in other languages have to reproduce, are the ones it prints for the names of the messages.", "quantifier": "all trees of names, both keyed hashes and all implementations of them; all eight message types", "why_tests_cant": "The generator is not run by any test, and its output was pasted by hand; that it prints one literal per leaf is a claim about all trees", "anchors": ["rosenpass/src/bin/gen-ipc-msg-types.rs: calculate_hash_value, print_literal, gen_code_inner, main", "rosenpass/src/api/boilerplate/message_type.rs: PING_REQUEST to ADD_PSK_BROKER_RESPONSE", "ciphers/src/subtle/custom/incorrect_hmac_blake2b.rs: keyed_hash"]}
{"id": "C114", "title": "Many clients at the broker's socket", "statement": "However many clients connect to the socket handler, and however they write, wait, stop writing, close their connections and are scheduled: requests are handled one after the other, those of each client in the order in which it wrote them and none twice; each client is sent the replies to its own requests only, in order; what one client does ends no connection of another. The handler always comes to rest, and then every complete request has its reply as long as the privileged process runs; if that process ends, waiting clients are disconnected rather than left waiting.", "quantifier": "all numbers of clients, all bytes they write and in whatever pieces, all interleavings of clients, connection tasks, the broker task and the privileged process, all inner brokers, death of the privileged process at any moment", "why_tests_cant": "concurrency: the order of tasks and the pieces in which bytes arrive are not under the control of a test", "anchors": ["wireguard-broker/src/bin/socket_handler.rs: on_accept", "wireguard-broker/src/bin/socket_handler.rs: direct_broker_process", "wireguard-broker/src/bin/socket_handler.rs: listen_for_clients", "wireguard-broker/src/bin/priviledged.rs: main"]}
{"id": "C115", "title": "Handing a key to the broker returns", "statement": "A call of set_psk of the broker client returns: at once if all earlier requests have been written, otherwise as soon as the socket has taken them or a write fails, with the error the system reported. It never waits for its own request. (It does not return if the broker stops reading: the client goes on writing in a loop, and the socket is not put into blocking mode as the log says, so the whole server stands still.)", "quantifier": "all histories of calls, polls and arriving bytes of one client; all results of the writes", "why_tests_cant": "whether a call returns depends on what the socket does in every write of every earlier call", "anchors": ["wireguard-broker/src/brokers/mio_client.rs::MioBrokerClientIo::send_msg", "wireguard-broker/src/brokers/mio_client.rs::MioBrokerClientIo::flush_blocking", "wireguard-broker/src/brokers/mio_client.rs::MioBrokerClientIo::flush"]}
{"id": "C116", "title": "Committing a configuration", "statement": "A configuration that was read from a file, or put together with from_sk_pk and add_if_any, and is committed leaves its text in the file it names, with the permissions the file had, and changes no other file; read again it is the same configuration, the home directory being replaced by its path. If writing fails only this file is affected. (It is not safe against a failure or a crash: the file can be left with any part of the new text, and a configuration that cannot be written as text empties the file.)", "quantifier": "all configurations, file systems, points of failure of both writes", "why_tests_cant": "needs a crash at every byte of both writes, and every configuration", "anchors": ["rosenpass/src/config.rs::Rosenpass::commit", "rosenpass/src/config.rs::Rosenpass::store", "rosenpass/src/config.rs::Rosenpass::load", "rosenpass/src/config.rs::Rosenpass::from_sk_pk", "rosenpass/src/config.rs::Rosenpass::add_if_any"]}
{"id": "C117", "title": "The key that WireGuard uses is the last one handed over", "statement": "The processes that hand keys to the broker, the broker's socket handler, its privileged process and the kernel together: a pre-shared key that WireGuard has for a peer of an interface is the one it had at the beginning, or one that was handed over by a call of set_psk for this peer of this interface; no call adds or removes a peer. The keys are those of the calls handled so far, and of each process these are calls in the order in which it made them. When all calls of a process succeeded, their requests are written, nothing is on its way and the broker waits, the key of a peer for which no other process hands over keys is that of the last call for it. A call that has succeeded is not enough, though: until the process polls its broker client again, WireGuard does not have the key.", "quantifier": "Every number of processes, their calls, polls and results of every read and write; every schedule of the tasks of the handler, the privileged process and the kernel's failures, with connections and processes that end at any point; every initial set of interfaces, peers and keys.", "why_tests_cant": "Four programs pass the key on through three byte streams and a queue; a test sees one schedule and one division into reads and writes, and the interesting states (half a request written, several clients at once, a peer that is not there) are too many to list.", "anchors": ["wireguard-broker/src/brokers/mio_client.rs: MioBrokerClient, set_psk, mio_poll", "wireguard-broker/src/api/client.rs: BrokerClient::set_psk", "wireguard-broker/src/bin/socket_handler.rs: main, direct_broker_process, on_accept", "wireguard-broker/src/bin/priviledged.rs: main", "wireguard-broker/src/brokers/netlink.rs: set_psk"]}
{"id": "C118", "title": "WireGuard gets the same key at both ends", "statement": "Two servers, each with a broker for its peer, complete an exchange. When their brokers have done their work, WireGuard on the two machines has the same pre-shared key for the two peers, whatever keys the servers handed over before and whatever they hand over for other peers later.", "quantifier": "Every pair of servers that trust each other, in any state they can get to, and everything that happens between the datagrams of the exchange that does not end it; every number of other keys and of other processes at the brokers; every schedule of the brokers and every division of their streams into reads and writes.", "why_tests_cant": "The statement spans two machines with four programs each, and holds only together with the whole protocol; a test runs one exchange under one schedule.", "anchors": ["rosenpass/src/app_server.rs: AppServer::event_loop, output_key, AppPeer::set_psk", "rosenpass/src/protocol/protocol.rs: CryptoServer::handle_msg", "wireguard-broker/src/brokers/mio_client.rs: MioBrokerClient", "wireguard-broker/src/bin/socket_handler.rs: main", "wireguard-broker/src/bin/priviledged.rs: main", "wireguard-broker/src/brokers/netlink.rs: set_psk"]}
