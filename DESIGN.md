# A machine-checked model of rosenpass

The properties are listed in `properties.jsonl`, the status of each in
`MANIFEST.json`, the experiments with wrong programs in `seeded/LOG.jsonl`.
The Rocq development is in `rocq/theories`.

## Approach

* Every modelled Rust function is one Gallina function (total, computable). Its
  comment cites the file and lines in `/repo`, and names every simplification.
* `&mut` arguments become returned values. Mutations that happen before an
  error is returned are kept: a fallible method is a function
  `state -> state * res A`, where `res` has the three outcomes `Ok`, `Err` and
  `Panic`. `Panic` stands for `unwrap` on `None`, slice and vector indexing out of
  bounds, `assert!`, `panic!`.
* Randomness and the clock are explicit arguments of each API call, so that
  theorems quantify over them. The clock is read once per API call.
* Time is an integer number of microseconds. The code uses `f64` seconds.
  Rounding of `f64` is not modelled.
* Cryptographic primitives are the fields of a record `prims`: keyed hashes, the two
  KEMs, the AEAD and the XAEAD. Theorems quantify over all records. The
  functional laws a theorem needs (decryption inverts encryption,
  decapsulation inverts encapsulation, output lengths) are visible
  hypotheses of that theorem. A concrete executable instance satisfying all laws is used for
  the examples that show that hypotheses can be met. Nothing about secrecy or
  unforgeability of the primitives in `prims` is assumed. The properties about
  secrecy and authentication (`PSym*.v`) are proved in a separate symbolic
  model (`Sym.v`), where messages are terms and the attacker can apply every
  constructor and destructor of the terms but has no other way to break them.
* Where the faithful model violates a property, the violation is itself
  a theorem with a concrete witness, called `..._refuted`, and the part that
  does hold is proved as `..._partial`.
* `P*.v` files contain the property theorems only, with
  `Print Assumptions` after each of them. Specifications used in the statements are
  in `Spec*.v` or directly in the statement.

## Plan by property

| id | modelled | proof |
|----|----------|-------|
| C01 | handshake handlers, seal, index, sessions on wire bytes | symbolic execution of the four messages over arbitrary states |
| C02 | handle_init_conf, compare | invariant over histories |
| C03 | handle_init_hello, store_biscuit | frame lemma |
| C04 | known-response cache | invariant cache/index + frame lemma |
| C05 | all protocol calls | Hoare-style invariant, panics as outcome |
| C06 | index | invariant over histories; the collision case is refuted |
| C07 | add_peer, find_peer | direct + invariant |
| C08 | handle_msg | refuted (RespHello, InitConf); partial for the other types |
| C09 | handle_msg, poll, osk | refuted in general; holds for calls that return Ok |
| C10-C13 | poll, lifecycle | case analysis per peer, induction over peers |
| C14 | register_retransmission | arithmetic |
| C15 | active_biscuit_key, poll | arithmetic, invariant |
| C16 | store_biscuit, increment | invariant over histories |
| C17 | constant-time crate | induction over bytes |
| C18, C19 | length-prefix encoder and decoder | invariant over I/O schedules |
| C20-C22 | handle_msg_under_load, handle_cookie_reply, retransmission | symbolic execution; C22 refuted |
| C23, C24 | handle_msg | case analysis |
| C25 | message layouts | list lemmas |
| C26 | seal, check_seal | direct |
| C27-C32 | parts of app_server.rs | list and state machine reasoning; several refuted |
| C33, C34 | build_crypto_server.rs, build.rs, api_handler.rs | induction over peers and requests |
| C35 | api boilerplate: message types, parsing, dispatch, the four handlers | case analysis |
| C36 | mio manager | invariant over histories; one part refuted |
| C37, C66 | mio connection over a stream of bytes with file descriptors, any behaviour of the socket, any application | invariant over polls; rejected requests and clients that go away refuted |
| C38, C40 | wireguard-broker messages, client and server, privileged broker, socket handler queue, netlink broker over a map of devices | round trip by computation on the packed fields, induction over the stream; invalid requests refuted |
| C39, C67 | broker client over a non-blocking socket, any history of calls, polls and arrivals | invariant over histories; second response and immediate writing refuted |
| C41 | secrets, pools of all threads, blocks of memory and an arbitrary allocator | refinement of secrets that are values of their own; invariant over histories |
| C42, C43, C69 | config.rs and cli.rs over a file system model, with every point where writing can stop | grammar of command lines against the state machine by induction over arguments; case analysis of the commands; several cases refuted |
| C47 | rp/cli.rs | grammar of command lines against the parser, by induction over arguments, in both directions |
| C68 | files and Base64 text of keys (util/file.rs, util/b64.rs, secret-memory) | induction over groups of bits; short texts and existing files refuted |
| C44, C70 | rp/key.rs over the file system model with every point where writing can stop | case analysis over the calls; existing directories and retries refuted |
| C71, C72 | rp/exchange.rs: effects on the system in order, any of which may fail; netlink, tokio and the cleanup after a panic are not modelled | case analysis, induction over peers; port 65535, scoped addresses, several networks and the device that cannot be brought up refuted |
| C73 | wireguard-broker/native_unix.rs: the call of `wg` | computation; ignored exit status refuted |
| C74 | util/tokio/janitor.rs as a transition system over any interleaving | invariant over histories, decreasing measure; behaviour after a failed job and has_active_janitor refuted |
| C45 | osk derivation | constructive reduction to a hash collision |
| C46 | handle_resp_conf | refuted; partial for stale counters |
| C48 | store_msg_for_retransmission, retransmit_handshake | invariant over histories |
| C49 | hash domains | labels restated in Spec.domain; collision exhibited |
| C50 | all handlers | transcript restated from message fields; symbolic execution |
| C51 | handle_resp_conf | case analysis |
| C75, C76 | complete runs of initiator and responder (C50) and the output key (C45) | backwards through the chain of hashes, with a constructive collision; crossing handshakes refuted in general and by a run |
| C77 | `load` and `event_loop` over a file system model, TOML as a parameter | relation between the paths written and the paths meant, shown to be the function of the code; from there to the running server |
| C78 | the wrappers of the AEADs over buffers (Ciphers.v), stream cipher and authenticator as parameters | equations for buffers of the right size; refuted for buffers that are too large, which panic; the functions of the protocol model are these |
| C79 | the two keyed hashes over the libraries' Blake2b and SHAKE256 (Ciphers.v) | reduction of a collision to an explicit collision below, lifted to the conversations of C75 |
| C80 | the copy operations of the crate `to` (Ciphers.v) | cases on the lengths |
| C81 | table of descriptors, `fcntl`, `dup3`, `open`, `close` with failures, `claim_fd`, `claim_fd_inplace`, `mask_fd` (Fds.v) | equations for the table after each call; refuted for -1 and for claiming twice |
| C82 | `ApiCli`, `ApiConfig::apply_to_app_server` over the same table | invariant of the loop over sources; refuted for descriptors of the server itself and for -1 |
| C83 | `write` of `WriteWithFileDescriptors`, any behaviour of the socket | induction on the history of writes; `write_all` of the standard library on top |
| C84 | `read` of `ReadWithFileDescriptors` over the same table | invariants of delivery and of the claiming loop |
| C85 | typenum's numbers as bit strings, Rust's integer types as ranges with wrapping shift and checked sum | induction over the number: the constant is the number cut to the type |
| C86 | `serialize`, `deserialize` over the Base64 of C68 | the text determines the value and the value the text |
| C87 | policies, the two allocators and boxes as steps on the accounts of memsec | invariant over all histories |
| C88 | views as offset and length, set-up of messages as replacement of bytes | list arithmetic; a refutation for `setup_response_from_suffix` |
| C89 | the texts of `Debug` | injectivity of two-digit hexadecimal; a refutation for small bytes |
| C90 | the handshake over symbolic terms, an attacker with the network and any keys it is given, runs of any length (Sym.v) | an upper bound on the attacker's knowledge, kept by all honest steps; chaining keys as lists of mixed values |
| C91 | the same | a sealed value under a key outside of the bound was made by an honest step; equal chains have equal items |
| C92 | the same | as C90 for the chain in the biscuit; an explicit attack if the biscuit key is lost |
| C93 | the same, split at the time of acceptance | C91 before the split, the bound for the whole run after it |
| C94 | evaluation of terms with the primitives | computation, from the correctness of the primitives |
| C95 | any number of servers of C01 to C22, called in any order, next to a run of the symbolic handshake | simulation: every call keeps a relation between the state of the server and the run; no forgery and no collision are conditions on the single received message, not on all terms |
| C96 | the same | C90 to C93 for the run of C95, read off the sessions in the servers |
| C97 | the same | the bound on the attacker's knowledge of C90 |
| C98 | the same | equal chaining keys mix the same items; the items name both ends |
| C99 | the same, with events tied to the state changes of the servers | the biscuit number of an accepted InitConf stays counted at its peer; a run waits for one RespHello |
| C100 | the biscuit keys, cookie secrets and stored cookies of a server over time | C15 for each call, then induction over the calls after a poll; witnesses for the two limits that are not kept |
| C101 | the options for the broker, the descriptors of rosenpass and of the processes it starts (fork, mapping of descriptors, exec), and histories of three processes | case analysis of the system calls; induction over histories with the descriptors of the handler as invariant; the last part refuted in all histories |
| C102 | the helpers for errors of system calls, reading to the end, the wait for events | induction on the list of results of the calls; refutations for every source and every bound |
| C103 | cli.rs 470-482, native_unix.rs 82-128, 175-304, api/config.rs 23-61, with the format of postcard (WgConfig.v) | Induction over the bytes of a number and the list of parameters; the broker's messages by C38; `_refuted` for a peer that is too short and for a configuration without parameters |
| C104 | the derived (de)serialization of the configuration of rosenpass and rp on the level of toml tables (TomlConfig.v), with serde's treatment of flattened and optional structures | the entries taken by a flattened structure are those with its names, by induction over the table; each field is characterised by membership in the table, so that soundness and completeness are two directions of the same lemmas |
| C105 | the commands of Config.v with the reading and writing of TomlConfig.v | C104_config_kept, the file that is written is the one that is read, and paths without `~` are not changed by loading |
| C106 | the server of Protocol.v, histories of System.v | as C01, with what `retransmit_handshake` hands out in place of the first message (C48, C26: receivers do not look at the cookie field), and with the cached answer of the responder (C04) in place of the EmptyData |
| C107 | the options and the rules of env_logger (Main.v) | case analysis |
| C108 | both programs as functions of arguments and file system (Main.v), over the commands of Config.v and Rp.v | case analysis; composition with C43, C44 and C47 |
| C109 | `App.v` (event loop) over `Protocol.v` | every turn is a history of the engine, so that C01 applies; then what the turn does with the results |
| C110 | `Protocol.v` with the symbolic attacker of `SymRun.v` | invariant over histories: biscuit numbers used come from delivered confirmations, whose order is the order of the answers; case analysis of every message for the pending handshake |
| C111 | finished handshakes of the symbolic model whose messages were those the other side sent (Sym.v, `answered`, `initiator_has`, `responder_has`); the servers of C95 | the shared secret of the ephemeral encapsulation is in the chaining key of both sides and is not public; the biscuit is the only other place the chaining key goes |
| C112 | the socket options of a descriptor as results of system calls, each of which can fail; Socks.v | case analysis of the answers; with C35 for the requests; a raw and a listening socket refuted |
| C113 | the tree of names and its traversal, the text of a literal and how `hex!` reads it; BLAKE2b after RFC 7693 (GenTypes.v) | induction over trees; the hashes of the eight names by evaluation in the kernel |
| C114 | bin/socket_handler.rs with bin/priviledged.rs: the tasks of all connections, the queue, the broker task, the two pipes and the privileged process as one transition system, clients and scheduler as environment | invariant over all interleavings; a decreasing measure for coming to rest; the wedge of C40 refutes the rest |
| C115 | wireguard-broker/src/brokers/mio_client.rs send_msg, flush_blocking, flush; fcntl F_GETFD/F_SETFD | induction over the results of the writes, from the invariant of C39; the stall for every number of writes that would block |
| C116 | rosenpass/src/config.rs commit, store, load, from_sk_pk, empty, add_if_any over the files of C68 and the settings of C104 | case analysis of the two writes; C104 for reading again |
| C117 | PThrough.v | Composition of the client histories of Broker.v, the handler of Handler.v with `netlink_set_psk` inside, and byte streams in which a part may be on its way; the order of the requests is followed from the calls to the kernel by comparing frames. |
| C118 | PWireguard.v | Corollary of C109 and C117: the outputs of the two servers become the calls of their broker clients. |
| C52, C53 | length-prefix encoder and decoder | invariant over call sequences; one case of each refuted |
| C54 | handle_resp_hello | case analysis, invariant over histories |
| C55-C59 | app_server.rs: add_peer, event loop, poll, output_key, endpoints, with the environment (datagrams, failures, requests) as input of each turn | case analysis of one turn (`PApp.digest`), invariants over histories; concrete histories for what is refuted |
| C60-C63 | app_server.rs: try_recv with the sockets and the poll of the operating system, edge- and level-triggered | invariants over interleavings of arrivals and calls; some refuted |
| C64 | app_server.rs: event loop, handle_msg | case analysis of a turn |
| C65 | app_server.rs: try_recv, signal handler | counting invariant; bound on the number of calls |

## Not modelled

Timing side channels; the implementation of the primitives (libcrux, liboqs,
RustCrypto) and their computational security: secrecy and authentication
(C90 to C93) are proved over symbolic terms, where hash functions, KEMs and
ciphers are perfect; `f64` rounding; memory locking and guard pages; operating
system behaviour below read/write results; threads and async scheduling
except where a property says so; logging.

## Trusted base

Coq 8.16.1's kernel (`coqc` and `coqchk`) and the faithfulness of the hand-written
model to the Rust source, which can be reviewed with the line references in the
comments.  The section "Assumptions" below lists what `Print Assumptions`
reports.

Libraries outside `/repo` are modelled from their documented behaviour, and that
behaviour is trusted: the Rust standard library, `mio`, `zerocopy`, `toml`
and `serde`, `clap`, `base64`, `memsec`, `command-fds`, `postcard`, and the
system calls of Linux that the file, socket and process models name.  The
cryptographic libraries are the parameters `prims`.

## Which code is modelled

Every source file of the workspace with code in it, apart from tests, benches, fuzz
targets, examples, build scripts and `xtask`: the files of the model whose comments cite
it, and its functions that no comment cites, with their lines. Of the functions not
listed, at least a part is modelled; the comments say what is left out. Most of the
functions listed only construct, convert or borrow a value, or are declarations in a trait.

| source | model | functions not modelled |
|--------|-------|------------------------|
| cipher-traits/src/algorithms.rs | Wire.v, Builder.v, Ciphers.v | - |
| cipher-traits/src/kem.rs | Prims.v | `keygen` 150, `encaps` 156, `decaps` 162 |
| cipher-traits/src/primitives.rs | - | no functions |
| cipher-traits/src/primitives/aead.rs | Prims.v, Sym.v, Ciphers.v | - |
| cipher-traits/src/primitives/kem.rs | Prims.v | - |
| cipher-traits/src/primitives/keyed_hash.rs | Prims.v, Ciphers.v | `default` 102, `clone` 112 |
| ciphers/src/hash_domain.rs | HashDomains.v, Server.v | - |
| ciphers/src/lib.rs | - | no functions |
| ciphers/src/subtle/custom/incorrect_hmac_blake2b.rs | Ciphers.v | - |
| ciphers/src/subtle/keyed_hash.rs | Prims.v | `fmt` 59 |
| ciphers/src/subtle/rust_crypto/blake2b.rs | Ciphers.v, GenTypes.v | - |
| ciphers/src/subtle/rust_crypto/chacha20poly1305_ietf.rs | Ciphers.v | - |
| ciphers/src/subtle/rust_crypto/keyed_shake256.rs | Ciphers.v | - |
| ciphers/src/subtle/rust_crypto/xchacha20poly1305_ietf.rs | Ciphers.v, Protocol.v | - |
| constant-time/src/compare.rs | ConstTime.v | `memcmp_le_test` 40 |
| constant-time/src/increment.rs | ConstTime.v | - |
| constant-time/src/memcmp.rs | ConstTime.v | - |
| constant-time/src/xor.rs | ConstTime.v | - |
| oqs/src/kem_macro.rs | Sym.v | `keygen` 59, `encaps` 71, `default` 100 |
| oqs/src/lib.rs | - | no functions |
| rosenpass/src/api/api_handler.rs | AppIo.v, App.v, Builder.v, ApiConn.v, Socks.v, Api.v | `e_custom` 91, `einternal` 94, `ealready_supplied` 97, `einvalid_req` 100, `e_custom` 104, `einternal` 111, `ealready_supplied` 115, `einvalid_req` 119 |
| rosenpass/src/api/boilerplate/byte_slice_ext.rs | Api.v | `request_msg_type` 18, `request_msg_type_from_suffix` 34, `response_msg_type` 42, `response_msg_type_from_suffix` 58 |
| rosenpass/src/api/boilerplate/message_trait.rs | Buffers.v | `from_payload` 25, `init` 32, `setup` 38, `setup_msg` 43 |
| rosenpass/src/api/boilerplate/message_type.rs | Api.v | - |
| rosenpass/src/api/boilerplate/payload.rs | Api.v, Builder.v, Buffers.v, AppIo.v, ApiConn.v | `new` 372, `from_payload` 382, `setup` 389, `init` 395 |
| rosenpass/src/api/boilerplate/request_ref.rs | Api.v | - |
| rosenpass/src/api/boilerplate/request_response.rs | Buffers.v | `zk_response_maker` 15, `from` 103, `from` 109, `from` 115, `from` 121, `both` 132, `request` 158, `response` 163, `both_mut` 174, `request_mut` 200, `response_mut` 205 |
| rosenpass/src/api/boilerplate/response_ref.rs | Api.v | - |
| rosenpass/src/api/boilerplate/server.rs | Api.v | `ping` 20, `supply_keypair` 72, `add_listen_socket` 105, `add_psk_broker` 137 |
| rosenpass/src/api/cli.rs | Fds.v | - |
| rosenpass/src/api/config.rs | Fds.v, TomlConfig.v | - |
| rosenpass/src/api/mio/connection.rs | Api.v, ApiConn.v, AppIo.v | `new` 27, `borrow` 33, `borrow_mut` 39, `close` 108, `mio_token` 114, `mio_connection` 122, `app_server` 124, `mio_connection_mut` 126, `app_server_mut` 341 |
| rosenpass/src/api/mio/manager.rs | AppIo.v, Fds.v | `new` 33, `new` 50, `mio_manager` 57, `mio_manager_mut` 59, `app_server` 61, `app_server_mut` 63, `mio_connection` 179, `app_server` 185, `mio_connection_mut` 189, `app_server_mut` 195 |
| rosenpass/src/app_server.rs | App.v, AppRecv.v, AppIo.v, AppNet.v, Builder.v, System.v, Reading.v, WgConfig.v, Fds.v | `ipv4_any_binding` 61, `ipv6_any_binding` 71, `new` 157, `ptr` 162, `get_mut` 396, `lift` 420, `lower` 426, `get_app` 431, `get_app_mut` 436, `fmt` 517, `fmt` 544, `new` 566, `discovery_from_hostname` 622, `fmt` 714, `addresses` 738, `crypto_server` 952, `crypto_server_mut` 964, `verbose` 972, `add_api_connection` 1637, `mio_manager` 1668, `mio_manager_mut` 1672, `app_server` 1676, `app_server_mut` 1680 |
| rosenpass/src/bin/gen-ipc-msg-types.rs | GenTypes.v | - |
| rosenpass/src/cli.rs | Config.v, Spawn.v, Main.v, WgConfig.v | `get_broker_interface` 166, `create_broker` 518, `create_broker` 546, `generate_and_save_keypair` 625 |
| rosenpass/src/config.rs | Config.v, TomlConfig.v, Files.v, Commit.v | `validate` 213, `try_from` 222, `default` 254, `apply_to_app_server` 331, `default` 725 |
| rosenpass/src/hash_domains.rs | Sym.v, HashDomains.v | - |
| rosenpass/src/lib.rs | - | no functions |
| rosenpass/src/main.rs | Spawn.v | `print_custom_man_section` 11 |
| rosenpass/src/msgs.rs | Wire.v, Sym.v, App.v, AppRecv.v | - |
| rosenpass/src/protocol/basic_types.rs | Server.v, System.v, App.v | - |
| rosenpass/src/protocol/build_crypto_server.rs | Builder.v | - |
| rosenpass/src/protocol/constants.rs | Server.v | - |
| rosenpass/src/protocol/cookies.rs | Server.v | - |
| rosenpass/src/protocol/index.rs | Server.v | - |
| rosenpass/src/protocol/osk_domain_separator.rs | HashDomains.v, Sym.v | - |
| rosenpass/src/protocol/protocol.rs | Server.v, System.v, Protocol.v, Sym.v, Prims.v, Builder.v, HashDomains.v, Rp.v, Wire.v | `is_initiator` 341, `fmt` 427, `known_response_format` 437, `created_at` 604, `retire_at` 610, `die_at` 616, `get_mut` 1019 |
| rosenpass/src/protocol/timing.rs | Server.v | - |
| rosenpass/src/protocol/zerocopy.rs | - | none is modelled: `truncating_cast_into` 10, `truncating_cast_into_nomut` 17 |
| rp/src/cli.rs | Rp.v | - |
| rp/src/exchange.rs | Rp.v, TomlConfig.v | - |
| rp/src/key.rs | Rp.v, Files.v | `genkey` 21 |
| rp/src/main.rs | - | none is modelled: `main` 12, `main` 17 |
| rp/src/main_supported_platforms.rs | Main.v, Rp.v | - |
| secret-memory/src/alloc/memsec/malloc.rs | Alloc.v | `malloc_vec` 81, `new` 87, `fmt` 129 |
| secret-memory/src/alloc/memsec/memfdsec.rs | Alloc.v | `memfdsec_vec` 82, `new` 88, `fmt` 132 |
| secret-memory/src/alloc/mod.rs | Alloc.v | - |
| secret-memory/src/debug.rs | Values.v | - |
| secret-memory/src/file.rs | - | none is modelled: `store_secret` 41, `store` 45 |
| secret-memory/src/policy.rs | Alloc.v | - |
| secret-memory/src/public.rs | Files.v, Values.v, Config.v | `from_slice` 41, `new` 46, `zero` 51, `random` 56, `randomize` 61, `deref` 78, `deref_mut` 85, `borrow` 92, `borrow_mut` 98, `borrow` 105, `borrow_mut` 111, `store_b64_writer` 182, `from_slice` 224, `new` 231, `zero` 238, `random` 245, `randomize` 252, `deref` 269, `deref_mut` 276, `borrow` 283, `borrow_mut` 290, `store` 313, `load_b64` 324, `store_b64` 349, `store_b64_writer` 359 |
| secret-memory/src/rand.rs | - | none is modelled: `rng` 7 |
| secret-memory/src/secret.rs | SecretPool.v, Files.v, Config.v, Values.v | `from_secret_box` 65, `take` 71, `deref` 100, `new` 126, `store_b64_writer` 343, `store` 366 |
| secret-memory/src/serialization.rs | Values.v | `expecting` 22 |
| to/src/lib.rs | - | no functions |
| to/src/ops.rs | Ciphers.v | `copy_array` 162 |
| to/src/to/beside.rs | - | none is modelled: `dest` 22, `ret` 35, `dest_mut` 49, `ret_mut` 63, `condense` 77, `from` 86, `from` 93 |
| to/src/to/condense.rs | - | none is modelled: `condense` 34, `condense` 41, `condense` 50, `condense` 59 |
| to/src/to/dst_coercion.rs | - | none is modelled: `coerce_dest` 28, `coerce_dest` 32, `coerce_dest` 38 |
| to/src/to/to_function.rs | - | none is modelled: `to` 21 |
| to/src/to/to_trait.rs | - | none is modelled: `to` 48, `to_this_beside` 86, `to_value_beside` 113, `collect_beside` 144, `to_this` 185, `to_value` 210, `collect` 235 |
| to/src/to/with_destination.rs | - | none is modelled: `to` 41, `with_destination` 74 |
| util/src/b64.rs | Files.v | `fmt` 14, `fmt_b64` 42, `fmt_b64` 46, `fmt_b64` 52 |
| util/src/controlflow.rs | - | no functions |
| util/src/fd.rs | Socks.v, Fds.v | `clone_fd_to_cloexec` 145, `into_stdio_err` 192, `into_stdio_err` 198, `into_stdio_err` 206, `read` 219, `write` 225, `flush` 229, `is_socket` 245, `is_socket` 271, `socket_type` 290, `socket_domain` 319, `is_unix_stream_socket` 373, `demand_unix_stream_socket` 408, `socket_protocol` 453 |
| util/src/file.rs | Files.v, Reading.v | `read_slice_to_end` 108, `read_exact_to_end` 173, `load` 238, `load_b64` 322, `store_b64` 337, `store_b64_writer` 352, `store` 368 |
| util/src/fmt/debug.rs | Values.v | `from` 41, `deref` 49, `deref_mut` 55, `borrow` 61, `borrow_mut` 67, `as_ref` 73, `as_mut` 79 |
| util/src/functional.rs | - | none is modelled: `mutating` 115, `mutating` 130, `mutating_mut` 139, `mutating` 145, `mutating_mut` 152, `sideeffect` 166, `sideeffect` 181, `sideeffect_ref` 189, `sideeffect_mut` 197, `sideeffect` 203, `sideeffect_ref` 210, `sideeffect_mut` 218, `run` 247, `apply` 258, `apply` 264 |
| util/src/io.rs | Reading.v, Builder.v | `read_exact_til_end` 519 |
| util/src/length_prefix_encoding/decoder.rs | Lpe.v | `new` 60, `new` 97, `try_io_error_kind` 121, `from_parts` 188, `into_parts` 195, `header_buffer` 386, `header_buffer_mut` 391, `message_buffer` 396, `message_buffer_mut` 401, `bytes_read` 406, `into_message_buffer` 422, `has_header` 438, `header_buffer_avail` 453, `header_buffer_avail_mut` 459, `header_buffer_left` 465, `header_buffer_left_mut` 471, `message_buffer_avail_mut` 483, `message_buffer_left` 489, `message_buffer_left_mut` 495, `encoded_message_bytes` 514 |
| util/src/length_prefix_encoding/encoder.rs | Lpe.v, ApiConn.v | `from` 95, `from` 105, `into_buffer` 225, `into_parts` 247, `header_written` 394, `message_written` 404, `buf` 414, `buffer_bytes` 419, `encoded_message_bytes` 439, `writing_position` 444, `buf_mut` 551, `buffer_bytes_mut` 556, `message_mut` 561, `message_written_mut` 567, `message_left_mut` 573 |
| util/src/mem.rs | Protocol.v | `cpy` 63, `new` 105, `extract` 110, `from` 118, `deref` 126, `deref_mut` 132, `borrow` 138, `borrow_mut` 144, `drop` 150, `discard_result` 167, `discard_result` 171, `forget` 185, `forget` 189, `swap_with` 210, `swap_with_mut` 212, `swap_with` 216, `swap_with_mut` 221, `swap_with_default` 239, `swap_with_default` 243, `move_here` 274, `move_here` 278 |
| util/src/mio/mio.rs | Fds.v, Socks.v | `claim_fd` 65, `from_fd` 81, `claim_fd` 85, `claim_fd_inplace` 89, `claim_fd_inplace` 106 |
| util/src/mio/uds_recv_fd.rs | Fds.v, ApiConn.v | `new` 87, `into_parts` 98, `socket` 104, `fds` 109, `fds_mut` 114, `socket_mut` 127 |
| util/src/mio/uds_send_fd.rs | Fds.v | `new` 72, `into_parts` 84, `socket` 90, `fds` 95, `fds_mut` 100, `socket_mut` 113, `flush` 162 |
| util/src/option.rs | - | none is modelled: `some` 15 |
| util/src/result.rs | - | none is modelled: `ok` 45, `ok` 49, `guaranteed` 74, `finally` 82, `finally` 86, `finally` 93, `guaranteed` 166, `ensure_or` 183, `bail_if` 202 |
| util/src/time.rs | - | none is modelled: `default` 24, `now` 31 |
| util/src/tokio/janitor.rs | Janitor.v | `new` 313, `new` 356, `get_client` 364, `new` 389, `into_tuple` 397, `unwrap_janitor_result` 406, `unwrap` 419, `new` 446, `from_callee_result` 454, `into_tuple` 459, `unwrap` 490, `from` 505, `try_ensure_janitor` 525, `ensure_janitor` 554, `try_spawn_cleanup_job` 591 |
| util/src/tokio/local_key.rs | - | none is modelled: `is_set` 6, `is_set` 10 |
| util/src/trace_bench.rs | - | none is modelled: `trace` 21 |
| util/src/typenum.rs | Values.v | - |
| util/src/zerocopy/ref_maker.rs | Buffers.v, Api.v | - |
| util/src/zerocopy/zerocopy_ref_ext.rs | Buffers.v | `emancipate` 31, `emancipate_mut` 62 |
| util/src/zerocopy/zerocopy_slice_ext.rs | Buffers.v | `zk_ref_maker` 29 |
| util/src/zeroize/zeroized_ext.rs | - | none is modelled: `zeroized` 20 |
| wireguard-broker/src/api/client.rs | Broker.v | `from` 66, `io_poller` 73, `invalid_msg_poller` 78, `send_msg` 109, `recv_msg` 111, `new` 131, `io` 136, `io_mut` 141 |
| wireguard-broker/src/api/config.rs | Broker.v, WgConfig.v | - |
| wireguard-broker/src/api/msgs.rs | Broker.v, Server.v, Spec.v | `iface` 55 |
| wireguard-broker/src/api/server.rs | Broker.v | `from` 32, `new` 60 |
| wireguard-broker/src/bin/priviledged.rs | Broker.v, Spawn.v, Handler.v | `main` 10 |
| wireguard-broker/src/bin/socket_handler.rs | Handler.v, Spawn.v, Broker.v | - |
| wireguard-broker/src/brokers/mio_client.rs | Broker.v, Stall.v, AppIo.v | `new` 107, `borrow` 113, `borrow_mut` 119, `unregister` 218, `mio_token` 224 |
| wireguard-broker/src/brokers/native_unix.rs | WgConfig.v, Rp.v, AppIo.v | `default` 68, `new` 74, `mio_token` 152 |
| wireguard-broker/src/brokers/netlink.rs | Broker.v | `from` 74, `from` 88, `new` 138, `fmt` 145 |
| wireguard-broker/src/lib.rs | - | none is modelled: `set_psk` 57, `create_config` 66, `register` 91, `mio_token` 98, `process_poll` 101, `unregister` 104 |

## Assumptions

`Print Assumptions` after every theorem in the `P*.v` files reports "Closed under
the global context": no axiom of the standard library or of any other
library is used. What a theorem needs about the primitives is a hypothesis in
its statement (`Prims.correct`, a record of functional laws).

## Wrong programs

`seeded/LOG.jsonl` has one line per edit of the model. `build_stops_at` is where the
build fails, most often a lemma that describes the edited function exactly.
`theorems_failed` are the property theorems that depend on it and whose
statement is false of the edited program. `theorems_tightened` says what was
changed when a statement turned out too weak or missing.
