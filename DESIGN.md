# Formal model of fastd in Rocq/Coq 8.16.1

The properties are listed in `properties.jsonl`; the status of each one is in
`MANIFEST.json`. The Coq development is in `rocq/theories` (logical name `Verif`).

## Layout and conventions

For each topic `X` there are up to three files:

* `XModel.v`  – executable model of the C code. No proofs. Every definition cites the
  file and lines in `/repo` it models and says where it simplifies.
* `XSpec.v`   – (where useful) an independent specification, written from the standard
  or documentation and not from the code's helpers.
* `XProofs.v` – lemmas.
* `XProps.v`  – only the property theorems, each closed by `exact lemma`, followed by
  `Print Assumptions` and by `Example`s showing that the hypotheses can be met.

Theorem names start with the property id (`C04_…`). A suffix `_partial` means that only
part of the English statement is proved; `_refuted` is a proof that the full
statement is false of the faithful model, with a concrete witness.

Integers: bytes and machine words are `N` with the wrap written explicitly; times and
ages are `Z`; list lengths are `nat`. C undefined behaviour, `exit_bug` and `exit_fatal`
are distinct outcomes in the model (never silently totalised).

## Plan per property

| id | modelled | how |
|---|---|---|
| C01 | `methods/common.c/.h` nonce counter, validity check | induction over event lists; counter value as a number |
| C02 | same | parity invariant of the last byte |
| C03 | `fastd_method_expand_nonce`, AES-CTR counter increment | injectivity, interval disjointness |
| C04 | `is_nonce_valid`, `reorder_check` | refuted in general (parity is taken from the wrong byte); proved for histories of nonces of the peer's parity class; at most 129 times in every history |
| C05 | same | refinement to a history based specification |
| C06 | same | refuted with witness (reflection), exact condition proved |
| C07 | session validity, `supersede_session` | invariant over event lists |
| C08–C12 | every method's encrypt/decrypt over byte lists | equational proofs, cipher/MAC as arbitrary functions (universally quantified) |
| C13 | `sha256.c` | equality to an independent FIPS 180-4 specification for all inputs |
| C14 | `hmacsha256`, HKDF | equality to RFC 2104/5869 over the C13 specification |
| C15 | `ghash_builtin.c` | equality to polynomial arithmetic over GF(2) (SP 800-38D) |
| C16 | `ghash_pclmulqdq_impl.c` | intrinsics modelled bit by bit, equality to the same specification |
| C17 | `uhash_builtin.c` | equality to RFC 4418 formulas |
| C18 | `block_equal`, `fastd_hmacsha256_verify` comparison | bitwise lemma |
| C19–C21 | TLV writer and parser, packet sizes | round trip by induction over records, bounds |
| C22–C23 | `fastd_handshake_handle` and error path | decision function, exhaustive case analysis |
| C24 | method list negotiation | list reasoning with independent specification |
| C25 | FHMQV computations | abelian group model, scalars modulo the group order |
| C26–C28 | protocol state machine | invariant over event lists |
| C29 | `backoff_unknown` | invariant over time slices |
| C30–C32, C34–C36, C48 | peer list, hash table, addresses, groups, reload | invariants and refinement |
| C33 | Ethernet address table and forwarding | refinement to a finite map |
| C37, C38 | peer task | invariant, refuted for peers without remote |
| C39 | pairing heap at pointer level (store of cells with `pprev`) and task loop | separation-style representation predicate over a finite map |
| C40, C41 | verification semaphore and dynamic peers | invariant |
| C42 | buffer accounting over the call tree | counting semantics of every path |
| C43–C45 | buffer sizing arithmetic | arithmetic over all configurations; refuted parts with witnesses |
| C46 | lexer over chunked input | simulation |
| C47 | address conversion, equality, hash | case analysis |
| C49 | epoll/poll dispatch loop | refuted for epoll with witness, proved for poll |
| C50 | bounded formatter | list lemma |
| C54 | method names, configured methods | grammar of names, induction over providers and groups |
| C53 | whole node | weakest preconditions; refuted for two kinds of events |
| C55 | dynamically sized arrays | refinement to lists |
| C56 | keys in hexadecimal | induction over digits, buffers as cells |
| C57 | environment of shell commands | one table of variables per command, buffers as cells |
| C58 | connections end only for a reason | whole node model; one-event theorem over all reachable states |
| C59 two nodes configured for each other connect and agree | NodeModel.v (replies carry their bytes), NodeWire.v (bytes of the first packet), HandshakeModel.v | NodeConnectSpec.v | NodeConnect*.v, NodeProps6.v |
| C60 a configuration file means what its statements say | ConfigModel.v, LexModel.v | ConfigSpec.v | ConfigProofs*.v, ConfigProps.v |
| C61 a command line means what its options say | OptionsModel.v, ConfigModel.v | OptionsSpec.v, ConfigSpec.v | OptionsProofs*.v, OptionsProps.v |
| C62 the process has the configured user and exactly the privileges it needs | PrivModel.v, OptionsModel.v | PrivSpec.v | PrivProofs*.v, PrivProps.v |
| C63 nodes that connect agree on keys, secrets and method | NodeModel.v, HandshakeModel.v | AgreeSpec.v | AgreeProofs*.v, AgreeProps.v |
| C64 wanted connections are retried, every address in turn | NodeModel.v | RetrySpec.v | RetryHoare*.v, RetryInv.v, RetryTurn*.v, RetryKeep.v, RetryRound.v, RetryProofs.v, RetryProps.v |
| C65 scripts see matched pairs | LifeModel.v | LifeSpec.v | LifeProofs*.v, LifeProps.v |
| C66 results of helper threads arrive intact | AsyncModel.v | AsyncSpec.v | AsyncProofs*.v, AsyncProps.v |
| C67 packets use a fitting socket and source address | SockModel.v | SockSpec.v | SockProofs*.v, SockProps.v |
| C68 log messages are well-formed, hide addresses, and go to the right places | LogModel.v, LogTable.v | LogSpec.v | LogProofs*.v, LogProps.v |
| C69 the status socket shows the node as it is | StatusModel.v, NodeModel.v | StatusSpec.v | StatusProofs*.v, StatusProps.v |
| C70 signals are acted upon in time, children are waited for | SigModel.v | SigSpec.v | SigProofs*.v, SigProps.v |
| C71 L2TP offloading keeps sessions, sockets and the kernel's tunnels together | L2tpModel.v | L2tpSpec.v | L2tpProofs*.v, L2tpProps.v |
| C72 Netlink requests say what is meant, replies are read within the buffer and understood | NlModel.v | NlSpec.v | NlProofs*.v, NlProps.v |
| C73 Every packet reaches each of its recipients once and is counted once | TrafficModel.v | TrafficSpec.v | TrafficProofs*.v, TrafficProps.v |
| C74 TUN/TAP interfaces are opened as configured and given back, and packets cross them unchanged | TunModel.v | TunSpec.v | TunProofs*.v, TunProps.v |
| C75 Peer directories define the peers that their files define | DirModel.v | DirSpec.v | DirProofs*.v, DirProps.v |
| C76 A program started in the background reports whether it is ready | DaemonModel.v | DaemonSpec.v | DaemonProofs*.v, DaemonProps.v |
| C77 Ciphers run on the processor; the memory of sessions is given back once, overwritten | ImplModel.v | ImplSpec.v | ImplProofs*.v, ImplProps.v |
| C78 The memory of the configuration and of the peers is given back once | HoldModel.v | HoldSpec.v | HoldProofs*.v, HoldProps.v |
| C79 Run modes, keys and the conditions of a start | BootModel.v | BootSpec.v | BootProofs*.v, BootProps.v |
| C80 A session is a channel | ChannelModel.v (on MethodModel.v, NonceModel.v) | ChannelSpec.v | ChannelProofs*.v, ChannelProps.v |
| C81 Handshake secrets in memory | EphemeralModel.v (on KexModel.v) | EphemeralSpec.v | EphemeralProofs*.v, EphemeralProps.v |
| C82 systemd and Android's service | SuperModel.v (on NameModel.v, ShellModel.v) | SuperSpec.v | SuperProofs.v, SuperProps.v |
| C83 Salsa20 for amd64 | SalsaModel.v | SalsaSpec.v, SalsaCall.v | SalsaSym.v, SalsaSound.v, SalsaSeg.v, SalsaRun.v, SalsaLoops.v, SalsaProofs.v, SalsaMain.v, SalsaProps.v |

## What each module models

* `Base` – bytes, big/little-endian values. `BufferModel` – `buffer.h/.c`: a buffer is its
  memory, data offset, length and 16-byte alignment; every access outside the allocation or
  misaligned where alignment is required yields `UB`; outcomes are `Ok | Bug | Fatal | UB`.
* `NonceModel` – `methods/common.c/.h`: nonces, replay window, session lifetimes.
* `MethodModel` – the data methods (`null`, `generic-gmac`, `composed-gmac`, `generic-umac`,
  `composed-umac`, `generic-poly1305`, `cipher-test`): encryption and decryption on buffers. Ciphers and
  MACs are universally quantified functions.
* `SizeModel` – `max_buffer`, headroom and payload sizes (`fastd.c`, `iface.c`, `fastd.h`).
* `HandshakeModel` – `handshake.c/.h` and the packet building parts of the protocol.
* `ShaModel` – `sha256.c`, `hkdf_sha256.c`, `secure_memequal` and `block_equal` of `crypto.h`.
  Pointers in the array given to `sha256_list` are the memory they point to; words are loaded
  big-endian as `be32toh` does; `xor` with the HMAC pads is done on little-endian words
  (the pads have four equal bytes, so the byte order does not matter).
  `ShaSpec` is written from FIPS 180-4, RFC 2104 and RFC 5869; the constants are computed as
  fractional parts of roots of primes.
* `GhashModel` – both GHASH implementations: the table-driven one byte by byte with its
  tables as lists, the PCLMULQDQ one on 128-bit numbers with each intrinsic written from
  Intel's description. `GhashSpec` is SP 800-38D plus the polynomial ring. The equality of
  the multiplications is proved by bilinearity and a check of all pairs of basis vectors
  (`GhashBasis*`, evaluated in the kernel).
* `UhashModel` – `uhash_builtin.c` with 32/64-bit wrap-around arithmetic and reads that are `UB`
  outside the message memory. `UhashSpec` is written from RFC 4418 (UHASH-128).
* `NodeModel` – a whole node as a state machine: peers and their states (`peer.c`), sessions and the
  handshake protocol (`protocols/ec25519_fhmqvc/*.c`), receiving and sending (`receive.c`, `send.c`), tasks
  (`task.c`, without the heap), Ethernet addresses (`peer.c`), verification (`verify.c`), resolving (`resolve.c`), reload
  (`config.c`, `peer_group.h`) and maintenance. The input is a list of (time difference, event); everything the
  environment decides (failing system calls, random numbers, MAC verification of data packets) is
  read from an oracle list; everything the node does is appended to a list of effects. The cryptographic
  functions are parameters (`params`). An event that ends in `Bug`, `Fatal` or `UB` ends the execution; the
  theorems speak about all completed events before it.
  `NodeSteps` describes what a node may do in one step as a relation, `NodeFun*` prove that the functions
  of the model only do such steps, `NodeWf` and `NodeInv` are invariants of the steps, `NodeProofs*` are the
  properties. `NodeSpec` has the vocabulary of the statements, in terms of effects and of the peer list.
* `AddrModel` – socket addresses as their bytes in memory: comparison, normalisation, hash (`peer.c`,
  `peer_hashtable.h`, `hash.h`). `AddrSpec` says what an address denotes (RFC 4291).
* `TableModel` – `peer_hashtable.c` with the real hash function, and the operations of `peer.c` on it; pointers are
  ids, using the id of a deleted peer is `UB`. `TableSpec` is a finite map.
* `UnknownModel` – `backoff_unknown` in `receive.c` with the real hash function.
* `FormatModel` – `snprintf_safe`, `fastd_vsnprintf` and the conversions it knows (`log.c`), `fastd_logf`'s final terminator and the
  interface name formatting (`iface.c`); a destination is a list of bytes and writes outside it are `UB`.
* `KexModel` – `make_shared_handshake_key`, `derive_key`, key generation and `divide_key` (`protocols/ec25519_fhmqvc/`). libuecc and the hash
  functions are parameters; `KexSpec.laws` is what is assumed of them: a commutative group with a base point of odd order between 2^252
  and 2^253, packing that can be undone, scalar arithmetic modulo the order. The caches of shared keys are part of `NodeModel`.
* `VerifyModel` – `verify.c` and `sem.h`: the main thread and the verifier threads interleaved, one event per
  step of a thread; `fork`, `waitpid`, `pthread_create` and sending the result may fail.
* `EthModel` – Ethernet addresses and forwarding in TAP mode: the sorted vector with both binary searches, removal by compaction and
  ageing (`peer.c`), destinations of frames (`send.c`) and frames from peers (`receive.c`). A peer is its id and whether it is
  established; which sessions have expired is part of each event. bsearch(3) is modelled as in glibc.
* `QueueModel` – the timer queue at pointer level: `pqueue.c` (all functions, with `pprev` back links) and `task.c`/`task.h`. Memory holds
  the entries of allocated tasks; using another one is undefined behaviour. C leaves open which argument of the last call of
  `pqueue_merge_pairs` is evaluated first; both orders are modelled. What handlers of tasks do with the queue is arbitrary.
- **LexModel.v** – the configuration lexer, all of src/lex.c: the 1024 byte buffer with `start`, `end`, `tok_len`, `advance`,
  `next`, `consume`, comments, strings with escapes, IPv4/IPv6 addresses with scope, numbers (`strtoull`), the keyword table with
  its binary search, locations. `fread` returns pieces of arbitrary sizes (at least a byte before the end) and may fail at the
  end; reading a byte outside buffer[0..end) is undefined behaviour. `inet_pton` is a parameter about which only "rejects texts
  longer than any address" is assumed. `strtoull` follows C11 (no binary constants). **LexSpec.v** – a lexer on the whole contents and a grammar of
  correct files. **LexProofs.v – LexProofs6.v**, **LexProps.v** – C46. Finding: a number of 1024 or more digits fills the buffer, is accepted, and the
  rest of the file is ignored silently (`C46_long_number_refuted`); the parser then usually reports a missing semicolon.
- **PollModel.v** – src/polling.c in all three variants (epoll; poll; select): registering, closing, `handle_fd`, `fastd_poll_handle`.
  Handlers are arbitrary functions of the state that open and close objects; memory of closed objects may be reused at once.
  **PollSpec.v** – properties of the trace of opened, closed, reported and dispatched objects. **PollProofs.v – PollProofs3.v**,
  **PollProps.v** – C49. Finding: the epoll variant accesses freed sockets when a handler closes an object whose event is later in the batch.
- **NodeReloadSpec.v** – when a definition and a peer agree, what one reload in an execution is. **NodeReload.v – NodeReload3.v** –
  proofs about `fastd_config_load_peer_dirs` and `fastd_configure_peers` per key (src/config.c 385-520, src/peer.c 700-820).
  **NodeOwn.v**, **NodeOwn2.v** – who owns an address and that owned addresses stay with their owners.
  **NodeProps3.v** – C35, C36, C48, and the witnesses for C37. Findings: a reload ignores a changed MTU if nothing else of the peer
  changed; the task of a peer without remotes accesses its first remote after an error while answering a handshake; a reload may
  define an address for a peer while another peer keeps using it.

- **NodeCrashSpec.v** – the crashes of C53 and the two kinds of events that cause them.
  **NodeSafe.v** to **NodeSafe6.v** – weakest preconditions of all functions of the node model: nothing ends in `Bug` or `UB`. The
  invariant is that established peers have address, session and socket, that a socket of its own belongs to a peer with remotes, and that
  the current remote and its current address exist. **NodeSafe7.v** – peers that are not dynamic have the options of a definition.
  **NodeProps4.v** – C37 and C53. Finding: a handshake of one peer on the socket opened for another is accepted; depending on the state the
  program then calls exit_bug (established peer without socket) or uses the socket it has just closed.
- **PoolModel.v** – the pool of packet buffers (`buffer.c`) and every function which allocates, passes on, accesses or frees a
  buffer: `fastd_receive`, `handle_socket_receive`, `protocol_handle_recv`, the encrypt and decrypt functions of all methods (by what
  they do with buffers), `fastd_handle_receive`, `fastd_send_data` with `send_all`, the handshake functions, `fastd_iface_handle`,
  `fastd_peer_handle_task`. Everything a branch depends on is an arbitrary choice. **PoolSpec.v**, **PoolProofs.v**, **PoolProps.v** –
  C42: the free list stays well formed, no freed buffer is accessed, three are enough and two are not.
- **NameModel.v** – `method_create_by_name` of all eight providers with their local arrays, the lookups of ciphers and MACs by name,
  `fastd_method_create_by_name`, `fastd_config_method`, `collect_methods`, `configure_methods`, `fastd_config_check` (methods only).
  **NameSpec.v** – the meaning of method names, from the manual. **NameProofs.v**, **NameProps.v** – C54. Finding: an empty method name
  declares an array of size zero.
- **VectorModel.v** – src/vector.c, the macros of src/vector.h and fastd_realloc_array of src/alloc.h: memory as a list of cells, each
  possibly uninitialised; accesses outside it are undefined; whether realloc succeeds is arbitrary. **VectorSpec.v** – the operations on lists.
  **VectorProofs.v**, **VectorProps.v** – C55. Other models use lists for vectors; this is the justification.
- **HexModel.v** – read_key, hexdump, print_hexdump and describe_peer of src/protocols/ec25519_fhmqvc; of sscanf and snprintf only what is
  used. **HexSpec.v** – what a hexadecimal text spells. **HexProofs.v**, **HexProps.v** – C56.
- **ShellModel.v** – src/shell.c without fork and exec, the functions which fill environments in src/peer.c, src/fastd.c, src/verify.c and the protocol,
  and the group lookup; inet_ntop and if_indextoname are parameters, setenv does not fail. **ShellSpec.v** – the table of variables. **ShellProofs.v**,
  **ShellProps.v** – C57. Finding: the manual promises INTERFACE, INTERFACE_MTU and LOCAL_KEY to all commands; pre-up, up, down and post-down inherit LOCAL_KEY from
  fastd's own environment instead. (up, down and pre-up are also always run synchronously, contrary to the manual; not modelled.)
- **NodeKeepSpec.v** – the reasons for which a connection may end. **NodeKeep.v**, **NodeKeep2.v**, **NodeProps5.v** – C58, about the node model: which computations leave a
  given peer alone. Finding: a connected peer that is not configured is deleted when a handshake request in its name (from anyone) meets a full verification limit.
- **C59** (liveness of the handshake, both ends). `partners`, `compatible`, `hears`, `welcome`, `holds_key`, `distinct_key` and `environment_fine` say what is needed: same protocol, mode, MAC and MTU, a key exchange with the same result at both ends (C25 shows that of the FHMQV code), a common method, the peer is known and not excluded by the address, room below the peer limits, no connection in the last seconds, ephemeral keys that are still valid and not used with this peer, and no failure of the method's initialisation or of creating an interface. The bytes of the three packets are those of the packet-building model (NodeWire.v puts the header in front); the theorems chain parsing, the lookup of the peer, the choice of the ephemeral key, the MAC, the choice of the method and the setup of the session. Peers that are only accepted after verification (`on verify`) are not covered by this claim. The events between the packets are arbitrary for the first node; for the second one the composed theorem lets the last packet directly follow the first (the theorem for the single steps holds for every reachable state).
- **C60** (configuration language). ConfigModel.v is config.y as a recursive descent over the tokens of the lexer model, with the actions and the functions they call (from config.c, peer.c, peer_group.c, options shared with the command line), and `fastd_config_read` with its changes of directory. That bison's LALR(1) tables accept the same language and run the actions at the same points as the recursive descent is not proved; the grammar needs one token of lookahead, and the places where an action depends on it are commented. ConfigSpec.v gives the statements as a data type, their text, the relation `means` that puts included files in their place (with the directory they are read in, the group and the number of groups so far), and `describes`, which says field by field what the statements in effect add up to ("the last one counts", "all of them", …). The file system is a function that does not change during the reading; the supported ciphers, MACs, the protocol, inet_pton/inet_ntop and the check of curve points are parameters. Findings on the way: the last `key` of a peer counts, so that a valid key followed by an invalid one rejects the peer, and an invalid one followed by a valid one does not; packet marks are cut to 32 bits without an error; an unsupported cipher, MAC, protocol or device, or a too deep nesting of files, ends the program (`exit_error`) instead of rejecting the file, also when a peer file is read again at run time.
- **C61** (command line). OptionsModel.v is options.c with the table of options.def.h (without the options of Android), strtol, and `fastd_configure`; reading files is that of ConfigModel.v. OptionsSpec.v gives each option its words and its meaning in terms of the statements of the configuration language, and `states`, the state the options add up to. Simplifications: a second `--config -` reads an empty input (after the end of a pipe or file; a terminal would read on); the text printed by --help and by the error messages is not modelled. Findings: `--bind [address%interface]` frees the text before the name of the interface in it is used (theorem C61_scope_refuted, with the exact condition in C61_total); the manual says that the file name is the name of a peer given with --config-peer, it has none; the manual and the help say that the default level is info, it is verbose; an invalid name given with --interface is ignored without an error; numbers may begin with white space and a sign, and an empty port is 0.
- **C62** (privileges). PrivModel.v is `configure_user` (config.c), capabilities.c, and `init` of fastd.c with `set_user`, `set_groups`, `write_pid`, `drop_caps` and the changes of user in `fastd_status_init`, as steps on the credentials of the process. The system calls (setresuid, setresgid, setgroups, capset, prctl(PR_SET_KEEPCAPS), execve of a program without setuid bit and file capabilities) are modelled after credentials(7), capabilities(7) and the kernel's security/commoncap.c, with the default securebits; user IDs are not bounded. What the system answers (the user database, whether creating the status socket, binding and opening an interface succeed) is arbitrary, and the latter three may depend on the credentials. Commands are events: what they do is not modelled. Threads are left out: capset changes only the calling thread, so a resolver thread that is started by `fastd_configure_peers` before the capabilities are dropped keeps its permitted ones. PrivSpec.v says which user and groups are wanted, what is needed in the main loop, which later operations there are with what the kernel requires for them, and what can be reached by system calls. Findings: C62_mark_refuted (a packet mark with a fixed port for one address family and peers' own ports for the other: CAP_NET_ADMIN is not retained, the sockets cannot be opened), C62_early_iface_refuted (drop capabilities early with TUN or multitap: the interfaces of static peers are opened after the drop, but CAP_NET_ADMIN is retained only for interfaces that are opened even later, so the program ends), C62_ready_refuted (a daemon's success and systemd's notification come before steps that may end the program), C62_off_refuted, C62_root_commands_refuted; a failing setgroups is ignored.
- **C63** (agreement between nodes). AgreeSpec.v puts any number of nodes of the node model side by side; every step is one event at one of them, a received datagram is arbitrary, and the clocks are independent. The only restriction of the network is `unforged`: a valid code under a handshake key that two of the nodes share was computed by one of the nodes for the same records (perfect message authentication; without it no statement of this kind can hold, since C26 shows that a valid code is all a session needs). `family` says what the cryptographic functions must do: the exchange has the same result at both ends (C25), ephemeral keys are not repeated, keys and codes have 32 bytes. Nodes of an adversary are not in the family; a session with a key that belongs to no node of the family is not restricted. The proof needs that the code binds every record of a packet (C63_binding), which depends on the parser: records do not overlap, and zeroing the code moves none of them.
- **C64** (retries). About the node model (C28 ff.). The task queue itself is C39; that a due task is handled soon is up to the main loop. RetryHoare*.v is a small program logic for predicates on single peers (a triple is proved for every function of the node model); RetryInv.v uses it for the invariant that an unconnected peer with remotes has a handshake scheduled, RetryKeep.v for the effect of events that are not the turn of the peer. RetryTurn*.v executes a turn symbolically. The oracle decides if a lookup can be started, if a socket can be opened and if sending fails (fastd_send's retry has no effect on an unconnected peer: a handshake is scheduled already).
- **C65** (lifecycle). LifeModel.v follows init, run and cleanup of fastd.c and all functions of peer.c and config.c that open, close or announce an interface or a connection, with reloads, dynamic peers and L2TP offload sessions (only as something that is created, updated or freed with arbitrary success). Which peer is reset or established when is an arbitrary input, a superset of what the node model (C28 ff.) does. Not included: whether a script succeeds (its status is ignored by the code) and that scripts started in the background may still run when the next one starts (C57 says which ones wait).
- **C66** (notifications). AsyncModel.v follows async.c byte by byte (little-endian, 64 bit), the resolver thread after getaddrinfo and the result of the verifier thread. The socket pair is a queue of datagrams whose sendmsg may fail at any time (the result is then lost with a warning, as in the code). The buffer of size zero that is declared for a NOP notification is formally undefined in C and treated as the empty buffer GNU C makes of it. What the main thread does with a result is part of the node model (C37, C41, C53); the limit on verifier threads is C40.
- **C67** (sockets). SockModel.v has the control messages of receive.c and send.c byte by byte (little-endian, 64 bit, with IP_PKTINFO and IPV6_PKTINFO), the choice of sockets of config.c, socket.c, fastd.c and peer.c, and the socket and addresses of one peer; other peers appear as the outcome of the search for conflicting addresses. Setting up sockets is reduced to whether it succeeds and to the family; options like SO_BINDTODEVICE, packet marks and path MTU discovery are not modelled. C67_fits_refuted is an error in the code: [fastd_peer_reset_socket] keeps the socket of a bind address, so that a peer with IPv4 and IPv6 addresses and separate sockets for them only ever uses the socket of the first address it tried. `Sent' in C64 means given to the system, which refuses it in this case. Sockets of other peers are excluded here, see C53.
- **C68** (log messages). LogTable.v lists the format and the C types of the arguments of all 200 calls of the logging functions in src (the types are our reading of the source; the compiler does not check them, as the conversions are not those of printf). LogModel.v adds fetching the arguments, levels and destinations to the formatter of C50. inet_ntop, if_indextoname and the time are arbitrary functions; snprintf is assumed not to fail, and NULL to be printed as "(null)" for %s as by glibc (formally undefined; possible for the file name when the configuration is read from stdin). C68_one_line_refuted is a weakness of the code: the version in a handshake response is logged unescaped, before the response is authenticated. C68_unknown_endless is an error without effect, as there are no unknown conversions.
- **C69** (status socket). The document is built from a reachable state of NodeModel.v, plus a record for what that model leaves out (names, counters, times, texts of addresses). json-c is not modelled: its objects are values, adding an existing field replaces it, and the conversion to text is arbitrary. inet_ntop does not fail (if it did, an uninitialised buffer would be shown). Addresses are shown in full even if they are hidden in the log. The lock protocol of instances with the same path is modelled at the level of system calls; other programs do not touch the path, and children that were forked but have not closed their descriptors yet are left out.
- **C70** (signals, main loop, children). The process is a machine whose steps interleave with signals, ends of children, helper threads that start and wait for children of their own, and notifications; both variants of the waiting (epoll_pwait; poll with a notification from the signal handler). The kernel is modelled by its rules: standard signals are not queued, unblocking delivers what is pending in any order, epoll_pwait on Linux delivers nothing if it returns events. What tasks, packets and reloads do is left out except that they run commands. Helper threads inherit the mask, so signals to the process are for the main thread. SIGKILL and SIGSTOP are left out. Refuted: with epoll, that a signal is acted upon after a bounded number of iterations; that the process always ends by the signal it was sent (a second one during the cleanup leads to exit status 255, where main.c says it should not be reached).
- **C71** (L2TP offloading). fastd's side (l2tp.c, the parts of socket.c and peer.c that open, move and close sockets) runs against a model of the kernel: open sockets with bound and connected addresses, L2TP tunnels and sessions (ids, socket, interface name, MTU), Netlink with sequence numbers, queued replies, lost acknowledgements and failing calls, and other programs that add or remove tunnels. File descriptors are never reused in the model. Not modelled: the attributes of messages, errno on receiving, plugging the interface (`on up` etc.), the worker that handles payload. Refuted: that a session exists in the kernel if Netlink calls may fail (`do_nl` returns a negative number as `bool`, that is true); that offloading recovers from a failed receive (requests and answers are shifted by one until the process is restarted); that the parent of an offload socket is alive if sockets on different interfaces may share a port.
- **C72** (Netlink messages). The bundled libmnl (attr.c, nlmsg.c, callback.c as far as fastd uses them) and the request functions of l2tp.c at byte level, for both byte orders; the buffer for replies contains arbitrary bytes at first. The format of messages is in NlSpec.v, separately from the code. Refuted, if the kernel's messages are not trusted: `mnl_nlmsg_ok` compares the length as `int`, so a length with the highest bit set is accepted, which leads to reads outside of the buffer or an endless loop; a message whose length is no multiple of 4 may get bytes of its last attribute from uninitialised memory. Misaligned accesses are not modelled.
- **C73** (payload and statistics). send.c, receive.c from fastd_handle_receive, the sending and receiving functions of ec25519_fhmqvc.c and fastd_stats_add, with TAP and TUN mode. The validity of sessions, encryption, decryption and system calls are answered by an environment that may answer differently each time. The Ethernet table is a list (C33 has the vector); buffers, sockets, timers are in C42, C67, C38/C64. Refuted: the node's counters are not the sum of those of its peers (a reset clears the latter), packets refused by the interface are counted as received, and packets that meet an expired session or a failing encryption are counted nowhere.
- **C74** (interfaces). iface.c for Linux, Android without integration, FreeBSD, OpenBSD, NetBSD and macOS, with packets in the buffers of C42/C43. System calls are answered by an environment and logged; the name is formatted in C50, the MTU comes from the peer. A descriptor counts as closed when close() fails. Refuted: with an address family before each packet (the BSDs in TUN mode) packets longer than MTU - 4 bytes lose their end when read, cipher-test as the only method leaves no room to write the address family (exit_bug on the first packet), and on Linux a device file that cannot be opened ends the program instead of giving up the interface.
- **C75** (peer directories). config.c read_peer_dir, read_peer_dirs, peer_dirs_read_peer_group and the key check of fastd_peer_add, on top of the reader of C60. It supplies the definitions that C34-C36 take as given. The file system answers through functions that may differ from those when the configuration was read, but do not change while the directories are read. get_current_dir_name does not fail, and the absolute paths it returned lead to the same place from every directory (real_paths). Refuted: a file that includes itself ends the program, also at a reload; a file that cannot be read at a reload makes its peer disappear.
- **C76** (going to the background). fastd.c daemonize and the order of init, with the parent, the first child, the daemon, the shell commands it starts and the pipe between them as interleaved processes; every call can fail and every process be killed at any time. The steps of init are opaque here (each can end the process), except for what they do with the pipe: the status, its closing, commands that inherit it until fastd_close_all_fds, and messages on the standard error. Refuted: status 0 means that the daemon stays up (capabilities and peer directories come later); with all standard descriptors closed at the start the pipe becomes descriptor 2, so that the parent takes the first byte of a log message for the status, or waits for a background command.
- **C77** (implementations and memory of sessions). The choice of cipher and MAC implementations (ciphers.c.in, macs.c.in, cpuid.h), the memory of all implementations' states and of all methods' sessions, and the handling of session slots in state.c, handshake.c and ec25519_fhmqvc.c, over a heap of objects. Simplified: a state's contents are the key it was made from; allocation does not fail; validity of sessions, decryption and the cipher's output are the environment's choice. Not modelled here: copies on the stack (secret, H), the secret key and handshake keys in conf.protocol_config and ctx.protocol_state, which are freed or left at the end without being overwritten. Refuted: the state of a peer is given back with the cached handshake key.
- **C78** (memory of the configuration). Every allocation and every free of the configuration (config.c, config.y, options.c, shell.h, lex.c), of peers (peer.c, dynamic peers in handshake.c) and of the files being read, over a memory that numbers objects and remembers what was given back. Simplified: contents are left out except for what the code compares (keys of peers, names of methods); files, directories and answers of the resolver are an arbitrary list of events; an event that cannot happen in a state leaves it alone; an open peer group joins its parent's children when it is closed. Not modelled here: protocol states (C77), interfaces (C74), the parser's own stack; the exits of the program, which give nothing back.
- **C79** (run modes). init_config from fastd.c, the checks of config.c (config_check_base, fastd_config_single_iface, has_peer_group_peer_dirs, fastd_config_check, fastd_config_verify), protocol_init, generate_key and show_key, composed with the models of the command line (C61), of method names (C54), of hexadecimal keys (C56), of key arithmetic (C25) and of users (C62). Simplified: messages are left out; what /dev/random delivers is given; of the two processes of daemonize (C76) the one that goes on is followed; a failure of chdir, which is only logged, and the effects of init_signals and init_log are events.
- **C80** (session as a channel). session_send and the part of protocol_handle_recv that concerns one session, run over any interleaving of sending, receiving and being superseded, on the models of the methods (C08-C12) and of the replay window (C01-C07). Assumed: both ends hold the same keys (C63) and their ciphers and MACs compute the same functions and do not fail; a datagram that is not a copy of a packet of the other end is no packet of the session at all (unforgeability, and no reflection: C06). The old and the current session of a peer are two such channels (C10 shows that trying a packet with the wrong one does not disturb it).
- **C81** (handshake secrets in memory). The two ephemeral key pairs and the handshake cache of the peers (state.c, handshake.c), over any sequence of handshakes sent and received, results of asynchronous verifications, additions, resets and deletions of peers. Which peer a packet belongs to, whether the MAC verifies with a given key, and how establishing a session goes on are given with the packet (any values). Assumed: the clock does not run backwards, a peer keeps its key, numbers of peers are not used again. Copies on the stack and in registers are not modelled; the serial number of key pairs is not bounded.
- **C82** (systemd and Android's service). notify_systemd (fastd.c), android.c, its callers at the end of bind_socket (socket.c) and in open_iface (iface.c), and the check of the descriptor in fastd_poll_fd_register; 64-bit little-endian system. Results of system calls are inputs; recvmsg delivers a control message with one descriptor or none. Failing dprintf and close are not noticed by the code and not modelled.
- **C83** (Salsa20 for amd64). salsa20_amd64_xmm6.s and salsa2012_amd64_xmm6.s instruction by instruction, and of the processor what they use. Memory consists of separate objects: the message does not overlap with the result, and addresses do not wrap. The 887 instructions and labels of the model were compared with the source by a script. The specification is Bernstein's Salsa20 with a variable number of rounds, checked against a published test vector. Straight-line parts are executed symbolically by a function that is proved sound. Messages up to 2^38 bytes (2^32 blocks). The wrappers salsa20_xmm.c and salsa2012_xmm.c pass their arguments on; the code for 32-bit x86 (xmm5) is not modelled.

## Trusted base

* Coq's kernel (8.16.1) and the standard library definitions used.
* The reading of the C code: the models were written by hand from the source text; the
  code was not executed.
* `Print Assumptions` prints "Closed under the global context" for every property theorem:
  no axiom is used. (Tactics such as `lia` load library files that declare axioms, e.g. in
  ssreflect's and Zify's support files; no theorem depends on them.)
* What is not modelled is listed at the end of this file (kept current as the model grows).

## Coverage by source file

The second column lists the properties whose anchors name the file; the third what of it is not modelled.

| file in src | properties | left out |
|---|---|---|
| alloc.h | C55 |  |
| android.c | C82 |  |
| async.c | C34, C66, C70 | fastd_async_init |
| buffer.c | C42–C44 |  |
| buffer.h | C08, C11, C45, C74 | the view helpers used only by the Netlink code |
| capabilities.c | C62 |  |
| config.c | C12, C24, C35, C43–C45, C54, C60–C62, C65, C67, C74, C75, C78, C79 |  |
| config.y | C60, C75, C78 | fastd_config_error (message text) |
| cpuid.h | C77 |  |
| crypto.h | C18 |  |
| crypto/cipher/aes128_ctr/openssl/aes128_ctr_openssl.c | C03 | OpenSSL itself |
| crypto/cipher/ciphers.c.in | C77 |  |
| crypto/cipher/salsa20/xmm/salsa20_amd64_xmm6.s | C83 |  |
| crypto/cipher/salsa20/xmm/salsa20_xmm.c | C83 |  |
| crypto/cipher/salsa2012/xmm/salsa2012_amd64_xmm6.s | C83 |  |
| crypto/cipher/salsa2012/xmm/salsa2012_xmm.c | C83 |  |
| crypto/mac/ghash/builtin/ghash_builtin.c | C11, C15, C16 |  |
| crypto/mac/ghash/pclmulqdq/ghash_pclmulqdq_impl.c | C16 |  |
| crypto/mac/macs.c.in | C77 |  |
| crypto/mac/uhash/builtin/uhash_builtin.c | C11, C17 |  |
| dep/libmnl/src/attr.c | C72 | functions fastd does not call |
| dep/libmnl/src/callback.c | C72 | functions fastd does not call |
| dep/libmnl/src/nlmsg.c | C72 | functions fastd does not call |
| dep/libmnl/src/socket.c | C72 | functions fastd does not call |
| fastd.c | C44, C57, C62, C65, C70, C76, C78, C79, C82 | init_log, close_log, close_sockets, init_early |
| fastd.h | C74, C78 |  |
| handshake.c | C19–C24, C59, C63, C73 | print_error (message text) |
| handshake.h | C19, C63 |  |
| hkdf_sha256.c | C14 |  |
| iface.c | C50, C65, C73, C74, C82 |  |
| lex.c | C46, C60 | read errors (io_error), destruction |
| log.c | C50, C68, C76 |  |
| log.h | C68 |  |
| methods/common.c | C01, C02, C04–C07, C80 |  |
| methods/common.h | C01–C03, C06, C07, C80 |  |
| methods/composed_gmac/composed_gmac.c | C09 |  |
| methods/composed_umac/composed_umac.c | C09 |  |
| methods/generic_gmac/generic_gmac.c | C03, C09 |  |
| methods/generic_poly1305/generic_poly1305.c | C09 |  |
| methods/generic_umac/generic_umac.c | C09 |  |
| methods/methods.c.in | C54 |  |
| offload/l2tp/l2tp.c | C71, C72 |  |
| options.c | C61, C78 | print_usage |
| options.def.h | C61 |  |
| peer.c | C30, C32–C38, C47, C48, C53, C57–C59, C64, C65, C67, C71, C73, C75, C78 |  |
| peer.h | C36–C38, C41, C64, C73 |  |
| peer_group.h | C57, C60 |  |
| peer_hashtable.c | C30, C31 | init, free |
| peer_hashtable.h | C47 |  |
| polling.c | C49, C70 | init, free |
| pqueue.c | C39 |  |
| pqueue.h | C39 |  |
| protocols/ec25519_fhmqvc/ec25519_fhmqvc.c | C10, C53, C56, C58, C69, C73, C77, C79, C80 |  |
| protocols/ec25519_fhmqvc/ec25519_fhmqvc.h | C56 |  |
| protocols/ec25519_fhmqvc/handshake.c | C07, C21, C22, C25–C28, C32, C41, C53, C58, C59, C63, C77, C81 |  |
| protocols/ec25519_fhmqvc/state.c | C27, C63, C77, C81 |  |
| protocols/ec25519_fhmqvc/util.c | C56, C57, C69, C79 |  |
| random.c | C79 | init and cleanup of the descriptor |
| receive.c | C12, C23, C29, C33, C42, C43, C45, C53, C58, C59, C67, C71, C73 |  |
| resolve.c | C64, C66 |  |
| sem.h | C40 |  |
| send.c | C33, C37, C42, C53, C64, C67, C73 |  |
| sha256.c | C13, C14, C18, C51 | the variadic wrappers |
| shell.c | C52, C57, C70, C76 |  |
| shell.h | C78 |  |
| socket.c | C62, C67, C71, C72, C82 | set_bound_address |
| status.c | C62, C69 |  |
| task.c | C39, C64 |  |
| vector.c | C55 |  |
| vector.h | C55 |  |
| verify.c | C40, C52, C58, C66 |  |

Files that no anchor names:

* `async.h`, `config.h`, `hkdf_sha256.h`, `lex.h`, `sha256.h`, `task.h`, `verify.h`, `polling.h`, `offload/`, `protocols/…/handshake.h`,
  `ghash.h`, `ghash_pclmulqdq.h`, `internal.h`: declarations; inline functions are cited in the model file of the `.c` file they belong to.
* `hash.h`, `types.h`, `method.h`, `methods/cipher_test`, `methods/null`, `methods/null-l2tp`: cited in AddrModel.v, BufferModel.v, NameModel.v and
  ChannelModel.v where their functions are used.
* `aes128_ctr.c`, `null.c`, `salsa20.c`, `salsa2012.c`, `ghash.c`, `uhash.c`: tables of names and sizes (NameModel.v, MethodModel.v).
* Not modelled at all: `main.c` (calls fastd_main), `compat.h`, `build.h.in`, `version.h.in`, `util.h` (alignment and rounding macros are inlined
  where used), `time.c` (clock_gettime), `null_memcpy.c`, `ghash_pclmulqdq.c` (glue), `salsa20_nacl.c`, `salsa2012_nacl.c` (calls of libsodium or
  NaCl), `salsa20_x86_xmm5.s`, `salsa2012_x86_xmm5.s` (32-bit x86).

## Not modelled

* The operating system (sockets, TUN/TAP devices, epoll/poll readiness, fork/exec,
  threads): replaced by arbitrary inputs of the model.
* The elliptic curve arithmetic of libuecc: a universally quantified parameter with the
  stated algebraic laws. So are the ciphers in the models of methods and nodes; Salsa20 for amd64
  is modelled on its own (C83), AES is OpenSSL's and is not.
* C integer promotions and memory layout, except where a property is about them.
