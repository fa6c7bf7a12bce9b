(** Model of a whole node: peers, handshakes, sessions, timers, reload.
    Sources: src/peer.c, src/peer.h, src/protocols/ec25519_fhmqvc/handshake.c,
    state.c, ec25519_fhmqvc.c, src/receive.c, src/send.c, src/config.c
    (L629-700), src/async.c, src/verify.c, src/resolve.c.

    A node is a state; an event (a received datagram, a frame read from the
    interface, a due timer, a finished thread, a signal) is handled completely
    before the next one, as in the main loop (fastd.c L593-598).  Everything the
    environment decides (random numbers, success of system calls, results of
    MAC checks of payload packets) is taken from the list [n_orc], which
    theorems quantify over.  A peer pointer is the peer's id; using it after the
    peer was freed is [UB].

    Simplifications: addresses are numbers (equality of the C structures is the
    subject of C47); the address hash table is the peer list itself (C31); the
    timer queue is the [p_task] field of each peer (C39); the table of unknown
    senders is an environment decision (C29); no offloading; statistics, logging
    and shell commands other than on-verify are left out; handshake packets
    sent are recorded by kind and not built (C19 to C23 are about their
    contents). *)
From Verif Require Import Base BufferModel NonceModel MethodModel HandshakeModel.
Local Open Scope Z_scope.

(** A socket address with a family other than AF_UNSPEC *)
Definition addr := N.

(** A socket bound at start ([sock->addr] set, [sock->peer] NULL) or the dynamic
    socket of a peer ([sock->addr] NULL, [sock->peer] set).  Dynamic sockets are
    freed with the peer's connection, so each gets a number of its own. *)
Inductive sock := SBound (n : N) | SDyn (owner inst : N).

(** [fastd_peer_state_t], [fastd_peer_config_state_t], peer.h L20-38 *)
Inductive pstate := Inactive | Passive | Resolving | Handshaking | Established.
Inductive cstate := CNew | CStatic | CDisabled | CDynamic.

(** [fastd_remote_t], peer.h L107-117 *)
Record remote := mk_remote {
  r_host : option bytes;   (* hostname *)
  r_addr : addr;           (* address *)
  r_addrs : list addr;     (* addresses, n_addresses *)
  r_cur : nat;             (* current_address *)
  r_to : Z                 (* last_resolve_timeout *)
}.

(** The state of a method session: a session of one of the authenticating
    methods, or of the null methods *)
Inductive mstate := MCommon (s : session) | MNull (s : null_session).

(** [protocol_session_t], ec25519_fhmqvc.h L56-69; None is [method == NULL] *)
Record psess := mk_psess {
  ss_id : N;               (* ghost: number of the session *)
  ss_cleaned : bool;       (* handshakes_cleaned *)
  ss_refreshing : bool;    (* refreshing *)
  ss_method : bytes;       (* method, by its name *)
  ss_state : mstate        (* method_state *)
}.

(** the handshake cache of [fastd_protocol_peer_state], ec25519_fhmqvc.h L78-83;
    None is [last_handshake_serial == 0] *)
Record hcache := mk_hcache { hc_serial : N; hc_hk : bytes; hc_sigma : bytes; hc_key : bytes }.

(** [handshake_key_t], handshake.h: an ephemeral key pair.  The key pair itself is
    identified by its serial number. *)
Record hkey := mk_hkey { k_serial : N; k_preferred_till : Z; k_valid_till : Z }.

(** [fastd_peer_t], peer.h L44-98, and [fastd_protocol_peer_state] *)
Record peer := mk_peer {
  p_id : N; (* id *)
  p_key : bytes; (* key *)
  p_group : list nat; (* the peer's group and its ancestors, innermost first *)
  p_dir : bool; (* config_source_dir != NULL *)
  p_remotes : list remote; (* remotes *)
  p_floating : bool; (* floating *)
  p_ifname : option bytes; (* ifname *)
  p_mtu : N; (* mtu, 0 if unset *)
  p_conf : cstate; (* config_state *)
  p_iface : bool; (* iface != NULL *)
  p_sock : option sock; (* sock *)
  p_laddr : option addr; (* local_address *)
  p_addr : option addr; (* address; None: AF_UNSPEC *)
  p_lh_addr : option addr; (* last_handshake_address *)
  p_lhr_addr : option addr; (* last_handshake_response_address *)
  p_next_remote : option nat; (* next_remote; None: -1 *)
  p_state : pstate; (* state *)
  p_task : option Z; (* task: time it is scheduled for *)
  p_next_hs : option Z; (* next_handshake; None: FASTD_TIMEOUT_INV *)
  p_lh_to : Z; (* last_handshake_timeout *)
  p_lhr_to : Z; (* last_handshake_response_timeout *)
  p_eh_to : Z; (* establish_handshake_timeout *)
  p_reset_to : option Z; (* reset_timeout *)
  p_keep_to : option Z; (* keepalive_timeout *)
  p_verify_to : Z; (* verify_timeout *)
  p_valid_to : Z; (* verify_valid_timeout *)
  p_old : option psess; (* protocol_state->old_session *)
  p_sess : option psess; (* protocol_state->session *)
  p_serial : N; (* protocol_state->last_serial *)
  p_cache : option hcache (* protocol_state: last_handshake_serial, peer_handshake_key, sigma, shared_handshake_key *)
}.

Definition set_p_id (x : N) (p : peer) : peer := mk_peer x (p_key p) (p_group p) (p_dir p) (p_remotes p) (p_floating p) (p_ifname p) (p_mtu p) (p_conf p) (p_iface p) (p_sock p) (p_laddr p) (p_addr p) (p_lh_addr p) (p_lhr_addr p) (p_next_remote p) (p_state p) (p_task p) (p_next_hs p) (p_lh_to p) (p_lhr_to p) (p_eh_to p) (p_reset_to p) (p_keep_to p) (p_verify_to p) (p_valid_to p) (p_old p) (p_sess p) (p_serial p) (p_cache p).
Definition set_p_key (x : bytes) (p : peer) : peer := mk_peer (p_id p) x (p_group p) (p_dir p) (p_remotes p) (p_floating p) (p_ifname p) (p_mtu p) (p_conf p) (p_iface p) (p_sock p) (p_laddr p) (p_addr p) (p_lh_addr p) (p_lhr_addr p) (p_next_remote p) (p_state p) (p_task p) (p_next_hs p) (p_lh_to p) (p_lhr_to p) (p_eh_to p) (p_reset_to p) (p_keep_to p) (p_verify_to p) (p_valid_to p) (p_old p) (p_sess p) (p_serial p) (p_cache p).
Definition set_p_group (x : list nat) (p : peer) : peer := mk_peer (p_id p) (p_key p) x (p_dir p) (p_remotes p) (p_floating p) (p_ifname p) (p_mtu p) (p_conf p) (p_iface p) (p_sock p) (p_laddr p) (p_addr p) (p_lh_addr p) (p_lhr_addr p) (p_next_remote p) (p_state p) (p_task p) (p_next_hs p) (p_lh_to p) (p_lhr_to p) (p_eh_to p) (p_reset_to p) (p_keep_to p) (p_verify_to p) (p_valid_to p) (p_old p) (p_sess p) (p_serial p) (p_cache p).
Definition set_p_dir (x : bool) (p : peer) : peer := mk_peer (p_id p) (p_key p) (p_group p) x (p_remotes p) (p_floating p) (p_ifname p) (p_mtu p) (p_conf p) (p_iface p) (p_sock p) (p_laddr p) (p_addr p) (p_lh_addr p) (p_lhr_addr p) (p_next_remote p) (p_state p) (p_task p) (p_next_hs p) (p_lh_to p) (p_lhr_to p) (p_eh_to p) (p_reset_to p) (p_keep_to p) (p_verify_to p) (p_valid_to p) (p_old p) (p_sess p) (p_serial p) (p_cache p).
Definition set_p_remotes (x : list remote) (p : peer) : peer := mk_peer (p_id p) (p_key p) (p_group p) (p_dir p) x (p_floating p) (p_ifname p) (p_mtu p) (p_conf p) (p_iface p) (p_sock p) (p_laddr p) (p_addr p) (p_lh_addr p) (p_lhr_addr p) (p_next_remote p) (p_state p) (p_task p) (p_next_hs p) (p_lh_to p) (p_lhr_to p) (p_eh_to p) (p_reset_to p) (p_keep_to p) (p_verify_to p) (p_valid_to p) (p_old p) (p_sess p) (p_serial p) (p_cache p).
Definition set_p_floating (x : bool) (p : peer) : peer := mk_peer (p_id p) (p_key p) (p_group p) (p_dir p) (p_remotes p) x (p_ifname p) (p_mtu p) (p_conf p) (p_iface p) (p_sock p) (p_laddr p) (p_addr p) (p_lh_addr p) (p_lhr_addr p) (p_next_remote p) (p_state p) (p_task p) (p_next_hs p) (p_lh_to p) (p_lhr_to p) (p_eh_to p) (p_reset_to p) (p_keep_to p) (p_verify_to p) (p_valid_to p) (p_old p) (p_sess p) (p_serial p) (p_cache p).
Definition set_p_ifname (x : option bytes) (p : peer) : peer := mk_peer (p_id p) (p_key p) (p_group p) (p_dir p) (p_remotes p) (p_floating p) x (p_mtu p) (p_conf p) (p_iface p) (p_sock p) (p_laddr p) (p_addr p) (p_lh_addr p) (p_lhr_addr p) (p_next_remote p) (p_state p) (p_task p) (p_next_hs p) (p_lh_to p) (p_lhr_to p) (p_eh_to p) (p_reset_to p) (p_keep_to p) (p_verify_to p) (p_valid_to p) (p_old p) (p_sess p) (p_serial p) (p_cache p).
Definition set_p_mtu (x : N) (p : peer) : peer := mk_peer (p_id p) (p_key p) (p_group p) (p_dir p) (p_remotes p) (p_floating p) (p_ifname p) x (p_conf p) (p_iface p) (p_sock p) (p_laddr p) (p_addr p) (p_lh_addr p) (p_lhr_addr p) (p_next_remote p) (p_state p) (p_task p) (p_next_hs p) (p_lh_to p) (p_lhr_to p) (p_eh_to p) (p_reset_to p) (p_keep_to p) (p_verify_to p) (p_valid_to p) (p_old p) (p_sess p) (p_serial p) (p_cache p).
Definition set_p_conf (x : cstate) (p : peer) : peer := mk_peer (p_id p) (p_key p) (p_group p) (p_dir p) (p_remotes p) (p_floating p) (p_ifname p) (p_mtu p) x (p_iface p) (p_sock p) (p_laddr p) (p_addr p) (p_lh_addr p) (p_lhr_addr p) (p_next_remote p) (p_state p) (p_task p) (p_next_hs p) (p_lh_to p) (p_lhr_to p) (p_eh_to p) (p_reset_to p) (p_keep_to p) (p_verify_to p) (p_valid_to p) (p_old p) (p_sess p) (p_serial p) (p_cache p).
Definition set_p_iface (x : bool) (p : peer) : peer := mk_peer (p_id p) (p_key p) (p_group p) (p_dir p) (p_remotes p) (p_floating p) (p_ifname p) (p_mtu p) (p_conf p) x (p_sock p) (p_laddr p) (p_addr p) (p_lh_addr p) (p_lhr_addr p) (p_next_remote p) (p_state p) (p_task p) (p_next_hs p) (p_lh_to p) (p_lhr_to p) (p_eh_to p) (p_reset_to p) (p_keep_to p) (p_verify_to p) (p_valid_to p) (p_old p) (p_sess p) (p_serial p) (p_cache p).
Definition set_p_sock (x : option sock) (p : peer) : peer := mk_peer (p_id p) (p_key p) (p_group p) (p_dir p) (p_remotes p) (p_floating p) (p_ifname p) (p_mtu p) (p_conf p) (p_iface p) x (p_laddr p) (p_addr p) (p_lh_addr p) (p_lhr_addr p) (p_next_remote p) (p_state p) (p_task p) (p_next_hs p) (p_lh_to p) (p_lhr_to p) (p_eh_to p) (p_reset_to p) (p_keep_to p) (p_verify_to p) (p_valid_to p) (p_old p) (p_sess p) (p_serial p) (p_cache p).
Definition set_p_laddr (x : option addr) (p : peer) : peer := mk_peer (p_id p) (p_key p) (p_group p) (p_dir p) (p_remotes p) (p_floating p) (p_ifname p) (p_mtu p) (p_conf p) (p_iface p) (p_sock p) x (p_addr p) (p_lh_addr p) (p_lhr_addr p) (p_next_remote p) (p_state p) (p_task p) (p_next_hs p) (p_lh_to p) (p_lhr_to p) (p_eh_to p) (p_reset_to p) (p_keep_to p) (p_verify_to p) (p_valid_to p) (p_old p) (p_sess p) (p_serial p) (p_cache p).
Definition set_p_addr (x : option addr) (p : peer) : peer := mk_peer (p_id p) (p_key p) (p_group p) (p_dir p) (p_remotes p) (p_floating p) (p_ifname p) (p_mtu p) (p_conf p) (p_iface p) (p_sock p) (p_laddr p) x (p_lh_addr p) (p_lhr_addr p) (p_next_remote p) (p_state p) (p_task p) (p_next_hs p) (p_lh_to p) (p_lhr_to p) (p_eh_to p) (p_reset_to p) (p_keep_to p) (p_verify_to p) (p_valid_to p) (p_old p) (p_sess p) (p_serial p) (p_cache p).
Definition set_p_lh_addr (x : option addr) (p : peer) : peer := mk_peer (p_id p) (p_key p) (p_group p) (p_dir p) (p_remotes p) (p_floating p) (p_ifname p) (p_mtu p) (p_conf p) (p_iface p) (p_sock p) (p_laddr p) (p_addr p) x (p_lhr_addr p) (p_next_remote p) (p_state p) (p_task p) (p_next_hs p) (p_lh_to p) (p_lhr_to p) (p_eh_to p) (p_reset_to p) (p_keep_to p) (p_verify_to p) (p_valid_to p) (p_old p) (p_sess p) (p_serial p) (p_cache p).
Definition set_p_lhr_addr (x : option addr) (p : peer) : peer := mk_peer (p_id p) (p_key p) (p_group p) (p_dir p) (p_remotes p) (p_floating p) (p_ifname p) (p_mtu p) (p_conf p) (p_iface p) (p_sock p) (p_laddr p) (p_addr p) (p_lh_addr p) x (p_next_remote p) (p_state p) (p_task p) (p_next_hs p) (p_lh_to p) (p_lhr_to p) (p_eh_to p) (p_reset_to p) (p_keep_to p) (p_verify_to p) (p_valid_to p) (p_old p) (p_sess p) (p_serial p) (p_cache p).
Definition set_p_next_remote (x : option nat) (p : peer) : peer := mk_peer (p_id p) (p_key p) (p_group p) (p_dir p) (p_remotes p) (p_floating p) (p_ifname p) (p_mtu p) (p_conf p) (p_iface p) (p_sock p) (p_laddr p) (p_addr p) (p_lh_addr p) (p_lhr_addr p) x (p_state p) (p_task p) (p_next_hs p) (p_lh_to p) (p_lhr_to p) (p_eh_to p) (p_reset_to p) (p_keep_to p) (p_verify_to p) (p_valid_to p) (p_old p) (p_sess p) (p_serial p) (p_cache p).
Definition set_p_state (x : pstate) (p : peer) : peer := mk_peer (p_id p) (p_key p) (p_group p) (p_dir p) (p_remotes p) (p_floating p) (p_ifname p) (p_mtu p) (p_conf p) (p_iface p) (p_sock p) (p_laddr p) (p_addr p) (p_lh_addr p) (p_lhr_addr p) (p_next_remote p) x (p_task p) (p_next_hs p) (p_lh_to p) (p_lhr_to p) (p_eh_to p) (p_reset_to p) (p_keep_to p) (p_verify_to p) (p_valid_to p) (p_old p) (p_sess p) (p_serial p) (p_cache p).
Definition set_p_task (x : option Z) (p : peer) : peer := mk_peer (p_id p) (p_key p) (p_group p) (p_dir p) (p_remotes p) (p_floating p) (p_ifname p) (p_mtu p) (p_conf p) (p_iface p) (p_sock p) (p_laddr p) (p_addr p) (p_lh_addr p) (p_lhr_addr p) (p_next_remote p) (p_state p) x (p_next_hs p) (p_lh_to p) (p_lhr_to p) (p_eh_to p) (p_reset_to p) (p_keep_to p) (p_verify_to p) (p_valid_to p) (p_old p) (p_sess p) (p_serial p) (p_cache p).
Definition set_p_next_hs (x : option Z) (p : peer) : peer := mk_peer (p_id p) (p_key p) (p_group p) (p_dir p) (p_remotes p) (p_floating p) (p_ifname p) (p_mtu p) (p_conf p) (p_iface p) (p_sock p) (p_laddr p) (p_addr p) (p_lh_addr p) (p_lhr_addr p) (p_next_remote p) (p_state p) (p_task p) x (p_lh_to p) (p_lhr_to p) (p_eh_to p) (p_reset_to p) (p_keep_to p) (p_verify_to p) (p_valid_to p) (p_old p) (p_sess p) (p_serial p) (p_cache p).
Definition set_p_lh_to (x : Z) (p : peer) : peer := mk_peer (p_id p) (p_key p) (p_group p) (p_dir p) (p_remotes p) (p_floating p) (p_ifname p) (p_mtu p) (p_conf p) (p_iface p) (p_sock p) (p_laddr p) (p_addr p) (p_lh_addr p) (p_lhr_addr p) (p_next_remote p) (p_state p) (p_task p) (p_next_hs p) x (p_lhr_to p) (p_eh_to p) (p_reset_to p) (p_keep_to p) (p_verify_to p) (p_valid_to p) (p_old p) (p_sess p) (p_serial p) (p_cache p).
Definition set_p_lhr_to (x : Z) (p : peer) : peer := mk_peer (p_id p) (p_key p) (p_group p) (p_dir p) (p_remotes p) (p_floating p) (p_ifname p) (p_mtu p) (p_conf p) (p_iface p) (p_sock p) (p_laddr p) (p_addr p) (p_lh_addr p) (p_lhr_addr p) (p_next_remote p) (p_state p) (p_task p) (p_next_hs p) (p_lh_to p) x (p_eh_to p) (p_reset_to p) (p_keep_to p) (p_verify_to p) (p_valid_to p) (p_old p) (p_sess p) (p_serial p) (p_cache p).
Definition set_p_eh_to (x : Z) (p : peer) : peer := mk_peer (p_id p) (p_key p) (p_group p) (p_dir p) (p_remotes p) (p_floating p) (p_ifname p) (p_mtu p) (p_conf p) (p_iface p) (p_sock p) (p_laddr p) (p_addr p) (p_lh_addr p) (p_lhr_addr p) (p_next_remote p) (p_state p) (p_task p) (p_next_hs p) (p_lh_to p) (p_lhr_to p) x (p_reset_to p) (p_keep_to p) (p_verify_to p) (p_valid_to p) (p_old p) (p_sess p) (p_serial p) (p_cache p).
Definition set_p_reset_to (x : option Z) (p : peer) : peer := mk_peer (p_id p) (p_key p) (p_group p) (p_dir p) (p_remotes p) (p_floating p) (p_ifname p) (p_mtu p) (p_conf p) (p_iface p) (p_sock p) (p_laddr p) (p_addr p) (p_lh_addr p) (p_lhr_addr p) (p_next_remote p) (p_state p) (p_task p) (p_next_hs p) (p_lh_to p) (p_lhr_to p) (p_eh_to p) x (p_keep_to p) (p_verify_to p) (p_valid_to p) (p_old p) (p_sess p) (p_serial p) (p_cache p).
Definition set_p_keep_to (x : option Z) (p : peer) : peer := mk_peer (p_id p) (p_key p) (p_group p) (p_dir p) (p_remotes p) (p_floating p) (p_ifname p) (p_mtu p) (p_conf p) (p_iface p) (p_sock p) (p_laddr p) (p_addr p) (p_lh_addr p) (p_lhr_addr p) (p_next_remote p) (p_state p) (p_task p) (p_next_hs p) (p_lh_to p) (p_lhr_to p) (p_eh_to p) (p_reset_to p) x (p_verify_to p) (p_valid_to p) (p_old p) (p_sess p) (p_serial p) (p_cache p).
Definition set_p_verify_to (x : Z) (p : peer) : peer := mk_peer (p_id p) (p_key p) (p_group p) (p_dir p) (p_remotes p) (p_floating p) (p_ifname p) (p_mtu p) (p_conf p) (p_iface p) (p_sock p) (p_laddr p) (p_addr p) (p_lh_addr p) (p_lhr_addr p) (p_next_remote p) (p_state p) (p_task p) (p_next_hs p) (p_lh_to p) (p_lhr_to p) (p_eh_to p) (p_reset_to p) (p_keep_to p) x (p_valid_to p) (p_old p) (p_sess p) (p_serial p) (p_cache p).
Definition set_p_valid_to (x : Z) (p : peer) : peer := mk_peer (p_id p) (p_key p) (p_group p) (p_dir p) (p_remotes p) (p_floating p) (p_ifname p) (p_mtu p) (p_conf p) (p_iface p) (p_sock p) (p_laddr p) (p_addr p) (p_lh_addr p) (p_lhr_addr p) (p_next_remote p) (p_state p) (p_task p) (p_next_hs p) (p_lh_to p) (p_lhr_to p) (p_eh_to p) (p_reset_to p) (p_keep_to p) (p_verify_to p) x (p_old p) (p_sess p) (p_serial p) (p_cache p).
Definition set_p_old (x : option psess) (p : peer) : peer := mk_peer (p_id p) (p_key p) (p_group p) (p_dir p) (p_remotes p) (p_floating p) (p_ifname p) (p_mtu p) (p_conf p) (p_iface p) (p_sock p) (p_laddr p) (p_addr p) (p_lh_addr p) (p_lhr_addr p) (p_next_remote p) (p_state p) (p_task p) (p_next_hs p) (p_lh_to p) (p_lhr_to p) (p_eh_to p) (p_reset_to p) (p_keep_to p) (p_verify_to p) (p_valid_to p) x (p_sess p) (p_serial p) (p_cache p).
Definition set_p_sess (x : option psess) (p : peer) : peer := mk_peer (p_id p) (p_key p) (p_group p) (p_dir p) (p_remotes p) (p_floating p) (p_ifname p) (p_mtu p) (p_conf p) (p_iface p) (p_sock p) (p_laddr p) (p_addr p) (p_lh_addr p) (p_lhr_addr p) (p_next_remote p) (p_state p) (p_task p) (p_next_hs p) (p_lh_to p) (p_lhr_to p) (p_eh_to p) (p_reset_to p) (p_keep_to p) (p_verify_to p) (p_valid_to p) (p_old p) x (p_serial p) (p_cache p).
Definition set_p_serial (x : N) (p : peer) : peer := mk_peer (p_id p) (p_key p) (p_group p) (p_dir p) (p_remotes p) (p_floating p) (p_ifname p) (p_mtu p) (p_conf p) (p_iface p) (p_sock p) (p_laddr p) (p_addr p) (p_lh_addr p) (p_lhr_addr p) (p_next_remote p) (p_state p) (p_task p) (p_next_hs p) (p_lh_to p) (p_lhr_to p) (p_eh_to p) (p_reset_to p) (p_keep_to p) (p_verify_to p) (p_valid_to p) (p_old p) (p_sess p) x (p_cache p).
Definition set_p_cache (x : option hcache) (p : peer) : peer := mk_peer (p_id p) (p_key p) (p_group p) (p_dir p) (p_remotes p) (p_floating p) (p_ifname p) (p_mtu p) (p_conf p) (p_iface p) (p_sock p) (p_laddr p) (p_addr p) (p_lh_addr p) (p_lhr_addr p) (p_next_remote p) (p_state p) (p_task p) (p_next_hs p) (p_lh_to p) (p_lhr_to p) (p_eh_to p) (p_reset_to p) (p_keep_to p) (p_verify_to p) (p_valid_to p) (p_old p) (p_sess p) (p_serial p) x.

(** [fastd_peer_eth_addr_t], peer.h L100-105; the owner None is the local side *)
Record eth_entry := mk_eth { e_addr : N; e_peer : option N; e_to : Z }.

(** A running verification, [fastd_async_verify_return_t] *)
Record vjob := mk_vjob { v_peer : N; v_sock : sock; v_laddr : addr; v_raddr : addr; v_hk : bytes; v_flags : N }.

(** A composed reply: the ephemeral key of the other side it refers to, the shared
    handshake key it is authenticated with, and the datagram.  The datagram is the result
    of [build_reply], which is Ok for every configuration with names that fit (C19). *)
Record message := mk_msg { g_hk : bytes; g_salt : bytes; g_data : res bytes }.

(** What can be observed of a node *)
Inductive out :=
| OInit (pid : option N) (dst : addr)              (* initial handshake (type 1) sent *)
| OResp (pid : N) (dst : addr) (serial : N) (m : message) (* handshake response (type 2) sent *)
| OFin (pid : N) (dst : addr) (m : message)        (* handshake finish (type 3) sent *)
| OErr (dst : addr)                                (* error reply sent *)
| OSession (pid : N) (key : bytes) (conf : cstate) (initiator : bool) (serial : N) (hk salt sigma : bytes)
    (method : bytes) (sid : N) (src : addr)        (* session keys derived *)
| OSeen (pid : N)                                  (* authentic payload packet received *)
| OUp (pid : N)                                    (* connection established *)
| ODown (pid : N)                                  (* connection disestablished *)
| OData (pid : N) (sid : N) (nonce : option bytes) (dst : addr) (* payload packet sent; no nonce for null methods *)
| OEncFail (pid : N)                               (* "failed to encrypt packet", logged *)
| ODeliver (pid : N) (sid : N) (src : N)           (* payload written to the interface *)
| OVerifyStart (pid : N) (src : addr)
| OVerdict (pid : N) (key : bytes) (src : addr) (ok : bool) (* result of the verification command *)
| OResolve (pid : N) (rem : nat).

Record node := mk_node {
  n_now : Z; (* ctx.now *)
  n_peers : list peer; (* ctx.peers *)
  n_next_id : N; (* ctx.next_peer_id *)
  n_cur : hkey; (* protocol_state->handshake_key *)
  n_prev : hkey; (* protocol_state->prev_handshake_key *)
  n_eth : list eth_entry; (* ctx.eth_addrs *)
  n_floating : bool; (* ctx.has_floating *)
  n_resolving : list (N * nat); (* running resolver threads: peer id, remote *)
  n_verifying : list vjob; (* running verify threads *)
  n_next_sid : N; (* number of sessions created so far (ghost) *)
  n_next_sock : N; (* number of dynamic sockets opened so far (ghost) *)
  n_orc : list N; (* results of the environment still to come *)
  n_out : list (Z * out) (* what the node did, newest first *)
}.

Definition set_n_now (x : Z) (n : node) : node := mk_node x (n_peers n) (n_next_id n) (n_cur n) (n_prev n) (n_eth n) (n_floating n) (n_resolving n) (n_verifying n) (n_next_sid n) (n_next_sock n) (n_orc n) (n_out n).
Definition set_n_peers (x : list peer) (n : node) : node := mk_node (n_now n) x (n_next_id n) (n_cur n) (n_prev n) (n_eth n) (n_floating n) (n_resolving n) (n_verifying n) (n_next_sid n) (n_next_sock n) (n_orc n) (n_out n).
Definition set_n_next_id (x : N) (n : node) : node := mk_node (n_now n) (n_peers n) x (n_cur n) (n_prev n) (n_eth n) (n_floating n) (n_resolving n) (n_verifying n) (n_next_sid n) (n_next_sock n) (n_orc n) (n_out n).
Definition set_n_cur (x : hkey) (n : node) : node := mk_node (n_now n) (n_peers n) (n_next_id n) x (n_prev n) (n_eth n) (n_floating n) (n_resolving n) (n_verifying n) (n_next_sid n) (n_next_sock n) (n_orc n) (n_out n).
Definition set_n_prev (x : hkey) (n : node) : node := mk_node (n_now n) (n_peers n) (n_next_id n) (n_cur n) x (n_eth n) (n_floating n) (n_resolving n) (n_verifying n) (n_next_sid n) (n_next_sock n) (n_orc n) (n_out n).
Definition set_n_eth (x : list eth_entry) (n : node) : node := mk_node (n_now n) (n_peers n) (n_next_id n) (n_cur n) (n_prev n) x (n_floating n) (n_resolving n) (n_verifying n) (n_next_sid n) (n_next_sock n) (n_orc n) (n_out n).
Definition set_n_floating (x : bool) (n : node) : node := mk_node (n_now n) (n_peers n) (n_next_id n) (n_cur n) (n_prev n) (n_eth n) x (n_resolving n) (n_verifying n) (n_next_sid n) (n_next_sock n) (n_orc n) (n_out n).
Definition set_n_resolving (x : list (N * nat)) (n : node) : node := mk_node (n_now n) (n_peers n) (n_next_id n) (n_cur n) (n_prev n) (n_eth n) (n_floating n) x (n_verifying n) (n_next_sid n) (n_next_sock n) (n_orc n) (n_out n).
Definition set_n_verifying (x : list vjob) (n : node) : node := mk_node (n_now n) (n_peers n) (n_next_id n) (n_cur n) (n_prev n) (n_eth n) (n_floating n) (n_resolving n) x (n_next_sid n) (n_next_sock n) (n_orc n) (n_out n).
Definition set_n_next_sid (x : N) (n : node) : node := mk_node (n_now n) (n_peers n) (n_next_id n) (n_cur n) (n_prev n) (n_eth n) (n_floating n) (n_resolving n) (n_verifying n) x (n_next_sock n) (n_orc n) (n_out n).
Definition set_n_next_sock (x : N) (n : node) : node := mk_node (n_now n) (n_peers n) (n_next_id n) (n_cur n) (n_prev n) (n_eth n) (n_floating n) (n_resolving n) (n_verifying n) (n_next_sid n) x (n_orc n) (n_out n).
Definition set_n_orc (x : list N) (n : node) : node := mk_node (n_now n) (n_peers n) (n_next_id n) (n_cur n) (n_prev n) (n_eth n) (n_floating n) (n_resolving n) (n_verifying n) (n_next_sid n) (n_next_sock n) x (n_out n).
Definition set_n_out (x : list (Z * out)) (n : node) : node := mk_node (n_now n) (n_peers n) (n_next_id n) (n_cur n) (n_prev n) (n_eth n) (n_floating n) (n_resolving n) (n_verifying n) (n_next_sid n) (n_next_sock n) (n_orc n) x.

(** A peer definition as read from the configuration *)
Record pconf := mk_pconf {
  pc_key : bytes; pc_group : list nat; pc_dir : bool; pc_remotes : list (option bytes * addr);
  pc_floating : bool; pc_ifname : option bytes; pc_mtu : N
}.

(** Configuration and cryptography.  [c_shared initiator serial peer_key peer_hk]
    is [make_shared_handshake_key] with the own ephemeral key of that serial
    number: sigma and the shared handshake key, or failure. *)
Record params := mk_params {
  c_own : bytes;                                   (* own public key *)
  c_hs : hs_conf;
  c_limit : nat -> option nat;                     (* max_connections of a group; None: no limit *)
  c_methods : list nat -> list bytes;              (* methods of a group *)
  c_tap : bool;                                    (* conf.mode == MODE_TAP *)
  c_mtu : N;
  c_forward : bool;
  c_verify : option bool;                          (* on-verify: None unset, Some sync *)
  c_verify_group : list nat;
  c_shared_iface : bool;                           (* ctx.iface != NULL *)
  c_iface_persist : bool;
  c_null : bytes -> bool;                          (* is the method one of the null methods? *)
  c_force_keepalive : bytes -> bool;               (* METHOD_FORCE_KEEPALIVE *)
  c_key_ok : bytes -> bool;                        (* loads as a point other than the identity *)
  c_eph : N -> bytes;                              (* ephemeral public key of a serial number *)
  c_shared : bool -> N -> bytes -> bytes -> option (bytes * bytes);
  c_mac : bytes -> bytes -> bytes                  (* HMAC-SHA256: key, data *)
}.

(** ** State monad *)
Definition M (A : Type) := node -> res (A * node).
Definition ret {A} (a : A) : M A := fun n => Ok (a, n).
Definition bnd {A B} (m : M A) (f : A -> M B) : M B :=
  fun n => match m n with Ok (a, n') => f a n' | Bug => Bug | Fatal => Fatal | UB => UB end.
Definition fail {A} (r : res (A * node)) : M A := fun _ => r.
Definition lift {A} (r : res A) : M A :=
  fun n => match r with Ok a => Ok (a, n) | Bug => Bug | Fatal => Fatal | UB => UB end.
Definition gets {A} (f : node -> A) : M A := fun n => Ok (f n, n).
Definition modn (f : node -> node) : M unit := fun n => Ok (tt, f n).
Notation "x <- m ;; k" := (bnd m (fun x => k)) (at level 61, m at next level, right associativity).
Notation "m ;; k" := (bnd m (fun _ => k)) (at level 61, right associativity).
Definition when (b : bool) (m : M unit) : M unit := if b then m else ret tt.

Definition exit_bug {A} : M A := fun _ => Bug.
Definition exit_fatal {A} : M A := fun _ => Fatal.
Definition undefined {A} : M A := fun _ => UB.

(** The next decision of the environment; 0 if the list is exhausted *)
Definition pop : M N := fun n =>
  match n_orc n with
  | [] => Ok (0%N, n)
  | x :: r => Ok (x, set_n_orc r n)
  end.
Definition flip : M bool := x <- pop ;; ret (negb (N.eqb x 0)).
(** [fastd_rand(lo, hi)]: a value in [lo, hi) *)
Definition rand (lo hi : Z) : M Z := x <- pop ;; ret (lo + Z.of_N x mod (hi - lo)).

Definition emit (o : out) : M unit := modn (fun n => set_n_out ((n_now n, o) :: n_out n) n).

Definition find_id (l : list peer) (pid : N) : option peer := find (fun p => N.eqb (p_id p) pid) l.
Definition upd_id (l : list peer) (pid : N) (f : peer -> peer) : list peer :=
  map (fun p => if N.eqb (p_id p) pid then f p else p) l.
(** dereferencing a peer pointer *)
Definition rd (pid : N) : M peer := fun n =>
  match find_id (n_peers n) pid with Some p => Ok (p, n) | None => UB end.
Definition wr (pid : N) (f : peer -> peer) : M unit := fun n =>
  match find_id (n_peers n) pid with
  | Some _ => Ok (tt, set_n_peers (upd_id (n_peers n) pid f) n)
  | None => UB
  end.

Definition sock_eqb (a b : sock) : bool :=
  match a, b with
  | SBound x, SBound y => N.eqb x y
  | SDyn o i, SDyn o' i' => (N.eqb o o' && N.eqb i i')%bool
  | _, _ => false
  end.
(** dereferencing a socket pointer: dynamic sockets exist as long as their peer
    has them *)
Definition sock_alive (l : list peer) (sk : sock) : bool :=
  match sk with
  | SBound _ => true
  | SDyn o _ =>
      match find_id l o with
      | Some p => match p_sock p with Some sk' => sock_eqb sk sk' | None => false end
      | None => false
      end
  end.
Definition use_sock (sk : sock) : M unit :=
  l <- gets n_peers ;; if sock_alive l sk then ret tt else undefined.

(** ** Timeouts, peer.h and fastd.h L583-596; None is FASTD_TIMEOUT_INV *)
Definition otimed_out (now : Z) (t : option Z) : bool :=
  match t with Some t => timed_out now t | None => false end.
Definition omin (a b : option Z) : option Z :=
  match a, b with
  | Some x, Some y => Some (Z.min x y)
  | Some x, None => Some x
  | None, y => y
  end.
Definition oadvance (a : option Z) (v : Z) : option Z :=
  match a with Some x => Some (Z.max x v) | None => None end.

(** ** Simple predicates, peer.h *)
Definition is_established (p : peer) : bool := match p_state p with Established => true | _ => false end.
Definition is_dynamic (p : peer) : bool := match p_conf p with CDynamic => true | _ => false end.
Definition is_enabled (p : peer) : bool := match p_conf p with CStatic | CDynamic => true | _ => false end.
Definition is_floating (p : peer) : bool := (match p_remotes p with [] => true | _ => false end || p_floating p)%bool.
Definition is_sock_dynamic (p : peer) : bool := match p_sock p with Some (SBound _) => false | _ => true end.
Definition addr_eqb (a b : option addr) : bool :=
  match a, b with
  | Some x, Some y => N.eqb x y
  | None, None => true
  | _, _ => false
  end.
Definition peer_mtu (P : params) (p : peer) : N :=
  if c_tap P then c_mtu P else if negb (N.eqb (p_mtu p) 0) then p_mtu p else c_mtu P.
Definition allow_verify (P : params) : bool := match c_verify P with Some _ => true | None => false end.

(** [fastd_peer_owns_address], peer.c L557-573 *)
Definition owns_address (p : peer) (a : addr) : bool :=
  if is_floating p then false
  else existsb (fun r => match r_host r with Some _ => false | None => N.eqb (r_addr r) a end) (p_remotes p).

(** [fastd_peer_matches_address], peer.c L576-591 *)
Definition matches_address (p : peer) (a : addr) : bool :=
  if is_floating p then true
  else existsb (fun r => existsb (N.eqb a) (r_addrs r)) (p_remotes p).

(** [is_peer_in_group], peer.c L269-283 *)
Definition in_group (p : peer) (g : nat) : bool := existsb (Nat.eqb g) (p_group p).

(** [count_established_group_peers], peer.c L668-678 *)
Definition count_group (l : list peer) (g : nat) : nat :=
  length (filter (fun p => is_established p && in_group p g)%bool l).

(** [fastd_peer_may_connect], peer.c L681-696 *)
Definition may_connect (P : params) (l : list peer) (p : peer) : bool :=
  if is_established p then true
  else forallb (fun g => match c_limit P g with
                         | None => true
                         | Some m => Nat.ltb (count_group l g) m
                         end) (p_group p).

(** ** Sessions *)
Definition m_valid (now : Z) (m : mstate) : bool :=
  match m with MCommon s => common_is_valid now s | MNull s => n_valid s end.
Definition m_initiator (m : mstate) : bool :=
  match m with MCommon s => s_initiator s | MNull s => n_initiator s end.
Definition m_want_refresh (now : Z) (m : mstate) : bool :=
  match m with MCommon s => common_want_refresh now s | MNull _ => false end.
Definition m_superseded (now : Z) (m : mstate) : mstate :=
  match m with
  | MCommon s => MCommon (common_superseded now s)
  | MNull s => MNull {| n_initiator := n_initiator s; n_compat := n_compat s; n_valid := false |}
  end.
Definition set_ss_state (st : mstate) (x : psess) : psess :=
  mk_psess (ss_id x) (ss_cleaned x) (ss_refreshing x) (ss_method x) st.
Definition set_ss_flags (cleaned refreshing : bool) (x : psess) : psess :=
  mk_psess (ss_id x) cleaned refreshing (ss_method x) (ss_state x).
(** [is_session_valid], ec25519_fhmqvc.h L123-125 *)
Definition sess_valid (now : Z) (x : option psess) : bool :=
  match x with Some x => m_valid now (ss_state x) | None => false end.

(** ** Timers of a peer *)

(** [schedule_peer_task], peer.c L231-245 *)
Definition schedule_peer_task (pid : N) : M unit :=
  wr pid (fun p =>
    match omin (p_reset_to p) (omin (p_keep_to p) (p_next_hs p)) with
    | None => set_p_task None p
    | Some t =>
        match p_task p with
        | Some t' => if t <? t' then set_p_task (Some t) p else p
        | None => set_p_task (Some t) p
        end
    end).

(** [set_next_handshake], [set_next_handshake_default], [fastd_peer_schedule_handshake(_default)],
    peer.c L248-266, peer.h L183-193 *)
Definition set_next_handshake (pid : N) (delay : Z) : M unit :=
  now <- gets n_now ;; wr pid (set_p_next_hs (Some (now + delay))).
Definition handshake_default_rand : M Z := rand 17500 22500.
Definition schedule_handshake (pid : N) (delay : Z) : M unit :=
  set_next_handshake pid delay ;; schedule_peer_task pid.
Definition schedule_handshake_default (pid : N) : M unit :=
  d <- handshake_default_rand ;; schedule_handshake pid d.

(** [fastd_peer_seen], [fastd_peer_clear_keepalive], peer.h L255-263 *)
Definition peer_seen (pid : N) : M unit :=
  now <- gets n_now ;; wr pid (set_p_reset_to (Some (now + PEER_STALE_TIME))).
Definition clear_keepalive (pid : N) : M unit :=
  now <- gets n_now ;; wr pid (set_p_keep_to (Some (now + KEEPALIVE_TIMEOUT))).

(** ** Sending *)

(** [fastd_send], send.c L69-156: [sk] and [dst] must be there; the environment
    decides if sendmsg fails with EINVAL or ENETUNREACH and is repeated *)
Definition send_packet (sk : option sock) (dst : option addr) (pid : option N) (o : addr -> out) : M unit :=
  match sk, dst with
  | Some sk, Some a =>
      use_sock sk ;;
      emit (o a) ;;
      retry <- flip ;;
      match pid with
      | Some pid =>
          when retry (p <- rd pid ;;
                      match p_next_hs p with
                      | None => schedule_handshake_default pid
                      | Some _ => ret tt
                      end)
      | None => ret tt
      end
  | _, _ => exit_bug
  end.

(** [fastd_protocol_ec25519_fhmqvc_maintenance], state.c L47-62 *)
Definition maintenance : M unit :=
  modn (fun n =>
    if timed_out (n_now n) (k_preferred_till (n_cur n)) then
      set_n_cur (mk_hkey (k_serial (n_cur n) + 1)%N (n_now n + 15000) (n_now n + 30000))
        (set_n_prev (n_cur n) n)
    else n).

(** [fastd_protocol_ec25519_fhmqvc_handshake_init], handshake.c L468-497 *)
Definition handshake_init (sk : option sock) (dst : option addr) (pid : option N) : M unit :=
  maintenance ;; send_packet sk dst pid (OInit pid).

(** ** Setting up and resetting peers *)

(** [free_socket], peer.c L170-183 *)
Definition free_socket (pid : N) : M unit :=
  p <- rd pid ;;
  match p_sock p with
  | None => ret tt
  | Some (SDyn owner _) => if N.eqb owner pid then wr pid (set_p_sock None) else exit_bug
  | Some (SBound _) => wr pid (set_p_sock None)
  end.

(** [fastd_peer_reset_socket], peer.c L201-228: the environment decides if there
    is a default socket of the right family, or if opening a new one succeeds *)
Definition reset_socket (pid : N) : M unit :=
  p <- rd pid ;;
  match p_addr p with
  | None => free_socket pid
  | Some _ =>
      if negb (is_sock_dynamic p) then ret tt
      else
        free_socket pid ;;
        has_default <- flip ;;
        x <- pop ;;
        if has_default then wr pid (set_p_sock (Some (SBound x)))
        else if N.eqb x 0 then ret tt
        else
          i <- gets n_next_sock ;;
          modn (set_n_next_sock (i + 1)%N) ;;
          wr pid (set_p_sock (Some (SDyn pid i)))
  end.

(** [reset_peer], peer.c L292-337 *)
Definition reset_peer (P : params) (pid : N) : M unit :=
  p <- rd pid ;;
  when (is_established p) (emit (ODown pid)) ;;
  free_socket pid ;;
  modn (fun n => set_n_eth (filter (fun e => negb (match e_peer e with Some q => N.eqb q pid | None => false end)) (n_eth n)) n) ;;
  wr pid (fun p =>
    let p := set_p_old None (set_p_sess None p) in
    let p := set_p_task None p in
    let p := set_p_addr None (set_p_laddr None p) in
    let p := set_p_state Inactive p in
    if (negb (c_iface_persist P) || (match p_conf p with CDisabled => true | _ => false end) || is_dynamic p)%bool
    then set_p_iface false p else p).

(** [has_group_config_constraints], peer.c L186-193 *)
Definition has_limits (P : params) (p : peer) : bool :=
  existsb (fun g => match c_limit P g with Some _ => true | None => false end) (p_group p).

(** [init_handshake], peer.c L346-354 *)
Definition init_handshake (P : params) (pid : N) : M unit :=
  p <- rd pid ;;
  delay <- (if has_limits P p then rand 0 3000 else ret 0) ;;
  wr pid (set_p_state Handshaking) ;;
  schedule_handshake pid delay.

Definition set_remote (i : nat) (f : remote -> remote) (p : peer) : peer :=
  set_p_remotes (firstn i (p_remotes p) ++ match nth_error (p_remotes p) i with Some r => [f r] | None => [] end ++ skipn (S i) (p_remotes p)) p.
Definition set_r_cur (c : nat) (r : remote) := mk_remote (r_host r) (r_addr r) (r_addrs r) c (r_to r).
Definition set_r_to (t : Z) (r : remote) := mk_remote (r_host r) (r_addr r) (r_addrs r) (r_cur r) t.
Definition set_r_addrs (l : list addr) (r : remote) := mk_remote (r_host r) (r_addr r) l 0 (r_to r).

(** the remote an index stands for; reading outside the vector is [UB] *)
Definition rd_remote (pid : N) (i : nat) : M remote :=
  p <- rd pid ;;
  match nth_error (p_remotes p) i with Some r => ret r | None => undefined end.

(** [fastd_resolve_peer], resolve.c L100-129 *)
Definition resolve_peer (pid : N) (i : nat) : M unit :=
  p <- rd pid ;;
  if is_dynamic p then exit_bug
  else
    r <- rd_remote pid i ;;
    now <- gets n_now ;;
    if negb (timed_out now (r_to r)) then ret tt
    else
      wr pid (set_remote i (set_r_to (now + MIN_RESOLVE_INTERVAL))) ;;
      ok <- flip ;;
      when ok (emit (OResolve pid i) ;; modn (fun n => set_n_resolving ((pid, i) :: n_resolving n) n)).

(** [setup_peer], peer.c L371-442 *)
Definition setup_peer (P : params) (pid : N) : M unit :=
  now <- gets n_now ;;
  wr pid (fun p =>
    let p := set_p_remotes (map (fun r => mk_remote (r_host r) (r_addr r)
                 (match r_host r with None => [r_addr r] | Some _ => r_addrs r end) (r_cur r) now) (p_remotes p)) p in
    let p := set_p_next_remote (match p_remotes p with [] => None | _ => Some 0%nat end) p in
    let p := set_p_lh_to now (set_p_lh_addr None p) in
    let p := set_p_lhr_to now (set_p_lhr_addr None p) in
    let p := set_p_eh_to now p in
    let p := set_p_verify_to now (set_p_valid_to now p) in
    let p := set_p_next_hs None (set_p_keep_to None p) in
    set_p_reset_to (if is_dynamic p then Some now else None) p) ;;
  p <- rd pid ;;
  if negb (is_enabled p) then ret tt
  else
    (if c_shared_iface P then wr pid (set_p_iface true)
     else if (c_iface_persist P && negb (p_iface p) && negb (is_dynamic p))%bool then
       ok <- flip ;;
       if ok then wr pid (set_p_iface true)
       else if p_dir p then ret tt else exit_fatal
     else ret tt) ;;
    match p_next_remote p with
    | Some i =>
        r <- rd_remote pid i ;;
        wr pid (set_remote i (set_r_cur 0)) ;;
        match r_host r with
        | Some _ =>
            wr pid (set_p_state Resolving) ;;
            resolve_peer pid i ;;
            d <- handshake_default_rand ;;
            set_next_handshake pid d
        | None => init_handshake P pid
        end
    | None => wr pid (set_p_state Passive)
    end ;;
    schedule_peer_task pid.

(** [fastd_peer_reset], [fastd_peer_delete], [delete_peer], peer.c L652-665, L471-486 *)
Definition peer_reset (P : params) (pid : N) : M unit :=
  p <- rd pid ;;
  match p_state p with Inactive => ret tt | _ => reset_peer P pid end ;;
  setup_peer P pid.
Definition peer_delete (P : params) (pid : N) : M unit :=
  reset_peer P pid ;;
  modn (fun n => set_n_peers (filter (fun p => negb (N.eqb (p_id p) pid)) (n_peers n)) n).

(** [reset_peer_address], peer.c L547-554 *)
Definition reset_peer_address (P : params) (pid : N) : M unit :=
  p <- rd pid ;;
  if is_established p then peer_reset P pid else wr pid (set_p_addr None).

(** The loop of [fastd_peer_claim_address], peer.c L610-633: only its last
    iteration changes anything *)
Inductive claim := ClFree | ClRefused | ClEvict (pid : N).
Fixpoint claim_scan (l : list peer) (pid : N) (a : addr) (force : bool) : claim :=
  match l with
  | [] => ClFree
  | q :: r =>
      if N.eqb (p_id q) pid then claim_scan r pid a force
      else if negb (is_enabled q) then claim_scan r pid a force
      else if owns_address q a then ClRefused
      else if addr_eqb (p_addr q) (Some a) then
        if (negb force && is_established q)%bool then ClRefused else ClEvict (p_id q)
      else claim_scan r pid a force
  end.

(** [fastd_peer_claim_address], peer.c L602-649; all callers pass an address with
    a family other than AF_UNSPEC *)
Definition claim_address (P : params) (pid : N) (sk : option sock) (laddr : option addr) (a : addr) (force : bool) : M bool :=
  l <- gets n_peers ;;
  match claim_scan l pid a force with
  | ClRefused => reset_peer_address P pid ;; ret false
  | c =>
      match c with ClEvict q => reset_peer_address P q | _ => ret tt end ;;
      wr pid (set_p_addr (Some a)) ;;
      match sk with
      | Some (SBound k) =>
          p <- rd pid ;;
          match p_sock p with
          | Some (SBound k') => when (negb (N.eqb k k')) (free_socket pid ;; wr pid (set_p_sock (Some (SBound k))))
          | _ => free_socket pid ;; wr pid (set_p_sock (Some (SBound k)))
          end
      | Some sk => use_sock sk
      | None => ret tt
      end ;;
      match laddr with
      | Some la => wr pid (set_p_laddr (Some la))
      | None => ret tt
      end ;;
      ret true
  end.

(** ** Adding peers *)
Definition opt_bytes_eqb (a b : option bytes) : bool :=
  match a, b with
  | Some x, Some y => bytes_eqb x y
  | None, None => true
  | _, _ => false
  end.
Definition group_eqb (a b : list nat) : bool := if list_eq_dec Nat.eq_dec a b then true else false.

(** [peer_configs_equal], peer.c L699-725; the address of a remote with a hostname
    only holds its family and port *)
Fixpoint remotes_equal (l : list remote) (m : list (option bytes * addr)) : bool :=
  match l, m with
  | [], [] => true
  | r :: l, (h, a) :: m => (N.eqb (r_addr r) a && opt_bytes_eqb (r_host r) h && remotes_equal l m)%bool
  | _, _ => false
  end.
Definition configs_equal (p : peer) (c : pconf) : bool :=
  (group_eqb (p_group p) (pc_group c) && Bool.eqb (p_floating p) (pc_floating c) &&
   opt_bytes_eqb (p_ifname p) (pc_ifname c) && remotes_equal (p_remotes p) (pc_remotes c))%bool.

(** A new [fastd_peer_t] (fastd_new0), before [setup_peer] *)
Definition new_peer (id : N) (c : pconf) (st : cstate) (serial : N) : peer :=
  {| p_id := id; p_key := pc_key c; p_group := pc_group c; p_dir := pc_dir c;
     p_remotes := map (fun ha => mk_remote (fst ha) (snd ha) [] 0 0) (pc_remotes c);
     p_floating := pc_floating c; p_ifname := pc_ifname c; p_mtu := pc_mtu c; p_conf := st;
     p_iface := false; p_sock := None; p_laddr := None; p_addr := None; p_lh_addr := None; p_lhr_addr := None;
     p_next_remote := Some 0%nat; p_state := Inactive; p_task := None; p_next_hs := Some 0; p_lh_to := 0; p_lhr_to := 0;
     p_eh_to := 0; p_reset_to := Some 0; p_keep_to := Some 0; p_verify_to := 0; p_valid_to := 0;
     p_old := None; p_sess := None; p_serial := serial; p_cache := None |}.

Definition find_peer_key (l : list peer) (key : bytes) : option peer := find (fun p => bytes_eqb (p_key p) key) l.

(** [VECTOR_ADD] and [init_peer_state], peer.c L776-780, state.c L65-73 *)
Definition insert_peer (c : pconf) (st : cstate) : M N :=
  id <- gets n_next_id ;;
  modn (fun n => set_n_next_id (n_next_id n + 1)%N
                   (set_n_peers (n_peers n ++ [new_peer id c st (k_serial (n_cur n))]) n)) ;;
  ret id.

(** [fastd_peer_add], peer.c L728-790 *)
Inductive added := AddFailed | AddUnchanged | AddNew (id : N).
Definition peer_add (P : params) (c : pconf) (st : cstate) : M added :=
  l <- gets n_peers ;;
  match find_peer_key l (pc_key c) with
  | Some other =>
      match st with
      | CNew =>
          match p_conf other with
          | CNew | CDisabled => wr (p_id other) (set_p_conf CDisabled) ;; ret AddFailed
          | CStatic =>
              if configs_equal other c then wr (p_id other) (set_p_conf CNew) ;; ret AddUnchanged
              else peer_delete P (p_id other) ;; id <- insert_peer c st ;; ret (AddNew id)
          | CDynamic => peer_delete P (p_id other) ;; id <- insert_peer c st ;; ret (AddNew id)
          end
      | _ => exit_bug
      end
  | None => id <- insert_peer c st ;; ret (AddNew id)
  end.

Fixpoint each {A} (f : A -> M unit) (l : list A) : M unit :=
  match l with [] => ret tt | x :: r => f x ;; each f r end.

(** [configure_peers], config.c L630-668, for one peer; the loop runs backwards
    over the vector and only ever removes the current element *)
Definition configure_peer (P : params) (dirs_only : bool) (pid : N) : M unit :=
  p <- rd pid ;;
  match p_conf p with
  | CStatic => peer_delete P pid
  | CDynamic => ret tt
  | _ =>
      (match p_conf p with
       | CDisabled => ret tt
       | _ => when (bytes_eqb (c_own P) (p_key p)) (wr pid (set_p_conf CDisabled))
       end) ;;
      p <- rd pid ;;
      match p_conf p with
      | CDisabled => peer_reset P pid
      | _ =>
          when (is_floating p) (modn (set_n_floating true)) ;;
          wr pid (set_p_conf CStatic) ;;
          when (negb (is_established p) && (p_dir p || negb dirs_only))%bool (peer_reset P pid)
      end
  end.
Definition configure_peers (P : params) (dirs_only : bool) : M unit :=
  modn (set_n_floating false) ;;
  l <- gets n_peers ;;
  each (configure_peer P dirs_only) (rev (map p_id l)).

(** [fastd_config_load_peer_dirs], config.c L683-700.  [defs] are the peer
    definitions in the peer directories in the order they are read. *)
Definition pre_reload (p : peer) : peer :=
  if is_dynamic p then p
  else if negb (p_dir p) then set_p_conf CNew p
  else match p_conf p with CDisabled => set_p_conf CStatic p | _ => p end.
Definition load_peer_dirs (P : params) (dirs_only : bool) (defs : list pconf) : M unit :=
  modn (fun n => set_n_peers (map pre_reload (n_peers n)) n) ;;
  each (fun c => peer_add P c CNew ;; ret tt) defs ;;
  configure_peers P dirs_only.

(** [fastd_peer_reset_all], peer.c L1028-1040 *)
Definition reset_all (P : params) : M unit :=
  l <- gets n_peers ;;
  each (fun pid => p <- rd pid ;; if is_dynamic p then peer_delete P pid else peer_reset P pid) (map p_id l).

(** ** Payload *)

(** [check_session_refresh], ec25519_fhmqvc.c L30-39; [UB]: no session *)
Definition check_session_refresh (pid : N) : M unit :=
  p <- rd pid ;;
  now <- gets n_now ;;
  match p_sess p with
  | None => undefined
  | Some s =>
      when (negb (ss_refreshing s) && m_want_refresh now (ss_state s))%bool
        (wr pid (set_p_sess (Some (set_ss_flags true true s))) ;; schedule_handshake pid 0)
  end.

(** [check_session], ec25519_fhmqvc.c L88-95 *)
Definition check_session (P : params) (pid : N) : M bool :=
  p <- rd pid ;;
  now <- gets n_now ;;
  if sess_valid now (p_sess p) then ret true else peer_reset P pid ;; ret false.

(** [session_send], ec25519_fhmqvc.c L164-181, with the old or the current
    session.  The environment decides if the method's encrypt function fails;
    it then leaves the session as it is. *)
Definition session_send (P : params) (pid : N) (old : bool) : M unit :=
  p <- rd pid ;;
  match (if old then p_old p else p_sess p) with
  | None => undefined
  | Some s =>
      failed <- flip ;;
      if failed then emit (OEncFail pid)
      else
        let nonce := match ss_state s with MCommon c => Some (s_send c) | MNull _ => None end in
        let st := match ss_state s with MCommon c => MCommon (set_send c (increment_nonce (s_send c))) | MNull c => MNull c end in
        wr pid (if old then set_p_old (Some (set_ss_state st s)) else set_p_sess (Some (set_ss_state st s))) ;;
        send_packet (p_sock p) (p_addr p) (Some pid) (OData pid (ss_id s) nonce) ;;
        when (negb (c_force_keepalive P (ss_method s))) (clear_keepalive pid)
  end.

(** [protocol_send], ec25519_fhmqvc.c L184-198, with [use_old_session] L98-106 *)
Definition protocol_send (P : params) (pid : N) : M unit :=
  p <- rd pid ;;
  if negb (is_established p) then ret tt
  else
    ok <- check_session P pid ;;
    if negb ok then ret tt
    else
      check_session_refresh pid ;;
      p <- rd pid ;;
      now <- gets n_now ;;
      match p_sess p with
      | None => undefined
      | Some s => session_send P pid (m_initiator (ss_state s) && sess_valid now (p_old p))%bool
      end.

(** ** Ethernet addresses, peer.c L897-936, L1010-1025.  The sorted vector is
    modelled as a list (C33 is about the vector). *)
Definition eth_find (l : list eth_entry) (a : N) : option eth_entry := find (fun e => N.eqb (e_addr e) a) l.
Definition eth_add (pid : option N) (a : N) : M unit :=
  ok <- match pid with Some pid => p <- rd pid ;; ret (is_established p) | None => ret true end ;;
  if negb ok then exit_bug
  else modn (fun n =>
    set_n_eth (mk_eth a pid (n_now n + ETH_ADDR_STALE_TIME) :: filter (fun e => negb (N.eqb (e_addr e) a)) (n_eth n)) n).
Definition eth_cleanup : M unit :=
  modn (fun n => set_n_eth (filter (fun e => negb (timed_out (n_now n) (e_to e))) (n_eth n)) n).

(** [fastd_eth_addr_is_unicast], peer.h L282-284: bit 0 of the first of six bytes *)
Definition is_unicast (a : N) : bool := negb (N.testbit a 40).

(** [send_all], send.c L159-176: sending never changes the vector of peers *)
Definition send_all (P : params) (source : option N) : M unit :=
  l <- gets n_peers ;;
  each (fun pid =>
          p <- rd pid ;;
          if ((match source with Some s => N.eqb s pid | None => false end) || negb (is_established p))%bool then ret tt
          else protocol_send P pid) (map p_id l).

(** [fastd_send_data], [send_data_tap_single], send.c L179-228.  A frame is its
    source and destination address; frames shorter than an Ethernet header are
    dropped in TAP mode and not modelled *)
Definition send_data (P : params) (source dest : option N) (src dst : N) : M unit :=
  match dest with
  | Some d => protocol_send P d
  | None =>
      if c_tap P then
        (match source with
         | None => when (is_unicast src) (eth_add None src)
         | Some _ => ret tt
         end) ;;
        l <- gets n_eth ;;
        match (if is_unicast dst then eth_find l dst else None) with
        | None => send_all P source
        | Some e =>
            match e_peer e with
            | None => ret tt
            | Some d => if match source with Some s => N.eqb s d | None => false end then ret tt else protocol_send P d
            end
        end
      else send_all P source
  end.

(** [fastd_handle_receive], receive.c L288-329 *)
Definition handle_receive (P : params) (pid sid : N) (src dst : N) : M unit :=
  p <- rd pid ;;
  if negb (p_iface p) then ret tt
  else
    when (c_tap P && is_unicast src)%bool (eth_add (Some pid) src) ;;
    emit (ODeliver pid sid src) ;;
    when (c_tap P && c_forward P)%bool (send_data P (Some pid) None src dst).

(** A method's decrypt function (C05, C08, C09): the environment decides if
    the packet is authentic, and (for null methods) well-formed.  Result: the new
    state and if the packet is one of those passed on (not a duplicate). *)
Definition m_decrypt (now : Z) (m : mstate) (auth : bool) (nonce : bytes) : res (option (mstate * bool)) :=
  match m with
  | MNull s => Ok (if auth then Some (m, true) else None)
  | MCommon s =>
      match is_nonce_valid now s nonce with
      | None => Ok None
      | Some age =>
          if (negb auth || negb (Nat.eqb (length nonce) 6))%bool then Ok None
          else match reorder_check now s nonce age with
               | RUB => UB
               | RDuplicate => Ok (Some (MCommon s, false))
               | RNew s' | RReordered s' => Ok (Some (MCommon s', true))
               end
      end
  end.

(** [protocol_handle_recv], ec25519_fhmqvc.c L109-161; the last decisions of the
    environment are the contents of the payload *)
Definition handle_recv (P : params) (pid : N) (nonce : bytes) : M unit :=
  ok <- check_session P pid ;;
  if negb ok then ret tt
  else
    p <- rd pid ;;
    now <- gets n_now ;;
    auth_old <- flip ;;
    auth_new <- flip ;;
    r <- (match p_old p with
          | Some o =>
              if m_valid now (ss_state o) then
                d <- lift (m_decrypt now (ss_state o) auth_old nonce) ;;
                match d with
                | Some (st, fresh) => wr pid (set_p_old (Some (set_ss_state st o))) ;; ret (Some (ss_id o, fresh))
                | None => ret None
                end
              else ret None
          | None => ret None
          end) ;;
    r <- match r with
         | Some x => ret (Some x)
         | None =>
             match p_sess p with
             | None => undefined
             | Some s =>
                 d <- lift (m_decrypt now (ss_state s) auth_new nonce) ;;
                 match d with
                 | None => ret None
                 | Some (st, fresh) =>
                     let s' := set_ss_state st s in
                     wr pid (fun p => set_p_old None (set_p_sess (Some s') p)) ;;
                     when (negb (ss_cleaned s'))
                       (wr pid (fun p => set_p_next_hs None (set_p_sess (Some (set_ss_flags true (ss_refreshing s') s')) p)) ;;
                        when (m_initiator (ss_state s')) (session_send P pid false)) ;;
                     check_session_refresh pid ;;
                     ret (Some (ss_id s, fresh))
                 end
             end
         end ;;
    match r with
    | None => ret tt
    | Some (sid, fresh) =>
        emit (OSeen pid) ;;
        peer_seen pid ;;
        has_payload <- flip ;;
        src <- pop ;;
        dst <- pop ;;
        when (fresh && has_payload)%bool (handle_receive P pid sid src dst)
    end.

(** ** Handshakes *)

(** The fields of a received handshake; a field is there if its record has the
    right length ([has_field]).  [w_mac] is the MAC and the TLV data with the MAC
    overwritten by zeros (handshake.c L331-335). *)
Record hsview := mk_view {
  w_type : N; w_flags : N;
  w_sender : option bytes; w_recipient : option bytes;
  w_sender_hk : option bytes; w_recipient_hk : option bytes;
  w_mac : option (bytes * bytes);
  w_mtu : option N;
  w_method : option bytes; w_method_list : option bytes
}.
Definition fld (pkt : bytes) (h : handshake) (ty len : nat) : res (option bytes) :=
  if has_field h ty len then do b <- rec_read pkt h ty len; Ok (Some b) else Ok None.
Definition fld_any (pkt : bytes) (h : handshake) (ty : nat) : res (option bytes) :=
  if rec_present h ty then do b <- rec_read pkt h ty (rec_len h ty); Ok (Some b) else Ok None.
Definition view (pkt : bytes) (h : handshake) : res hsview :=
  do sk <- fld pkt h R_SENDER_KEY KEY_LEN;
  do rk <- fld pkt h R_RECIPIENT_KEY KEY_LEN;
  do sh <- fld pkt h R_SENDER_HANDSHAKE_KEY KEY_LEN;
  do rh <- fld pkt h R_RECIPIENT_HANDSHAKE_KEY KEY_LEN;
  do m <- fld pkt h R_TLV_MAC KEY_LEN;
  let off := match h_records h R_TLV_MAC with Some (o, _) => o | None => 0%nat end in
  let tlv0 := slice (overwrite pkt off (repeat 0%N KEY_LEN)) 4 (h_tlv_len h) in
  do mtu <- (if Nat.eqb (rec_len h R_MTU) 2 then do v <- as_uint16 pkt h R_MTU; Ok (Some v) else Ok None);
  do mn <- fld_any pkt h R_METHOD_NAME;
  do ml <- fld_any pkt h R_METHOD_LIST;
  Ok {| w_type := h_type h; w_flags := h_flags h; w_sender := sk; w_recipient := rk; w_sender_hk := sh;
        w_recipient_hk := rh; w_mac := match m with Some m => Some (m, tlv0) | None => None end;
        w_mtu := mtu; w_method := mn; w_method_list := ml |}.

(** [find_key] with an address, handshake.c L403-438 *)
Inductive match_result := MatchPeer (pid : N) | MatchPerm | MatchNone.
Fixpoint find_key (l : list peer) (key : bytes) (a : addr) (acc : option N) : match_result :=
  match l with
  | [] => match acc with Some pid => MatchPeer pid | None => MatchNone end
  | p :: r =>
      if negb (is_enabled p) then find_key r key a acc
      else if bytes_eqb (p_key p) key then
        if negb (matches_address p a) then MatchPerm else find_key r key a (Some (p_id p))
      else if owns_address p a then MatchPerm
      else find_key r key a acc
  end.

(** [match_sender_key], handshake.c L446-465 *)
Definition match_sender_key (sk : sock) (a : addr) (pid : option N) (key : bytes) : M match_result :=
  match sk, pid with
  | SDyn _ _, None => exit_bug
  | SDyn o _, Some pid => if N.eqb o pid then ret tt else exit_bug
  | _, _ => ret tt
  end ;;
  l <- gets n_peers ;;
  match pid with
  | Some pid =>
      p <- rd pid ;;
      if bytes_eqb (p_key p) key then ret (MatchPeer pid)
      else if owns_address p a then ret MatchPerm
      else ret (find_key l key a None)
  | None => ret (find_key l key a None)
  end.

(** [supersede_session], handshake.c L59-82.  The new session replaces [p_sess] right
    afterwards. *)
Definition superseded (now : Z) (method : bytes) (p : peer) : peer :=
  let p := if (sess_valid now (p_sess p) && negb (sess_valid now (p_old p)))%bool then set_p_old (p_sess p) p else p in
  match p_old p with
  | None => p
  | Some o =>
      if bytes_eqb (ss_method o) method then set_p_old (Some (set_ss_state (m_superseded now (ss_state o)) o)) p
      else set_p_old None p
  end.
Definition supersede_session (pid : N) (method : bytes) : M unit :=
  now <- gets n_now ;;
  wr pid (superseded now method).

(** [new_session], handshake.c L85-108.  If the method's init function fails, the
    caller resets the peer, which ends both of its sessions; so whether it fails is
    asked before [supersede_session] here. *)
Definition new_session (P : params) (pid : N) (method : bytes) (initiator compat : bool)
    (hk salt sigma : bytes) (serial : N) (src : addr) : M bool :=
  failed <- flip ;;
  if failed then ret false
  else
    now <- gets n_now ;;
    rnd <- rand 0 KEY_REFRESH_SPLAY ;;
    sid <- gets n_next_sid ;;
    modn (set_n_next_sid (sid + 1)%N) ;;
    let st := if c_null P method then MNull {| n_initiator := initiator; n_compat := compat; n_valid := true |}
              else MCommon (common_init now initiator compat rnd) in
    p <- rd pid ;;
    supersede_session pid method ;;
    wr pid (fun p => set_p_serial serial (set_p_sess (Some (mk_psess sid false false method st)) p)) ;;
    emit (OSession pid (p_key p) (p_conf p) initiator serial hk salt sigma method sid src) ;;
    ret true.

(** [fastd_peer_set_established] without offloading, peer.c L861-883 *)
Definition set_established (pid : N) : M bool :=
  p <- rd pid ;;
  ok <- (if p_iface p then ret true
         else ok <- flip ;; when ok (wr pid (set_p_iface true)) ;; ret ok) ;;
  if negb ok then ret false
  else if is_established p then ret true
  else
    wr pid (set_p_state Established) ;;
    peer_seen pid ;;
    clear_keepalive pid ;;
    schedule_peer_task pid ;;
    emit (OUp pid) ;;
    ret true.

(** [establish], handshake.c L111-154 *)
Definition establish (P : params) (pid : N) (method : bytes) (sk : sock) (laddr raddr : addr)
    (initiator compat : bool) (hk salt sigma : bytes) (serial : N) : M bool :=
  p <- rd pid ;;
  if (serial <=? p_serial p)%N then ret false
  else
    ok <- claim_address P pid (Some sk) (Some laddr) raddr true ;;
    if negb ok then peer_reset P pid ;; ret false
    else
      ok <- new_session P pid method initiator compat hk salt sigma serial raddr ;;
      if negb ok then peer_reset P pid ;; ret false
      else
        ok <- set_established pid ;;
        if negb ok then peer_reset P pid ;; ret false
        else
          now <- gets n_now ;;
          wr pid (set_p_eh_to (now + MIN_HANDSHAKE_INTERVAL)) ;;
          (if initiator then schedule_handshake_default pid else session_send P pid false) ;;
          ret true.

(** [update_shared_handshake_key], handshake.c L253-269 *)
Definition update_shared (P : params) (pid : N) (serial : N) (hk : bytes) : M (option hcache) :=
  p <- rd pid ;;
  let compute :=
    match c_shared P false serial (p_key p) hk with
    | None => ret None
    | Some (sigma, key) =>
        let c := mk_hcache serial hk sigma key in
        wr pid (set_p_cache (Some c)) ;; ret (Some c)
    end in
  match p_cache p with
  | Some c => if (N.eqb (hc_serial c) serial && bytes_eqb (hc_hk c) hk)%bool then ret (Some c) else compute
  | None => compute
  end.

(** [fastd_handshake_send_free] with the flags of packets composed by this program
    (FLAG_L2TP_SUPPORT), src/handshake.c L277-300: with a control header *)
Definition with_header (r : res bytes) : res bytes := match r with Ok p => Ok (control_header ++ p) | Bug => Bug | Fatal => Fatal | UB => UB end.

(** The datagram of a response, handshake.c L288-308, to the ephemeral key [hk] of the
    peer; [key] is the shared handshake key *)
Definition wire_resp (P : params) (p : peer) (serial : N) (hk key : bytes) : res bytes :=
  with_header (build_reply (c_hs P) 2 (peer_mtu P p) None (c_methods P (p_group p))
    (c_own P) (p_key p) (c_eph P serial) hk (c_mac P key)).

(** The datagram of a finish, handshake.c L343-362 *)
Definition wire_fin (P : params) (p : peer) (serial : N) (hk key method : bytes) : res bytes :=
  with_header (build_reply (c_hs P) 3 (peer_mtu P p) (Some method) []
    (c_own P) (p_key p) (c_eph P serial) hk (c_mac P key)).

(** [respond_handshake], handshake.c L281-309 *)
Definition respond_handshake (P : params) (sk : sock) (raddr : addr) (pid : N) (hk : bytes) : M unit :=
  cur <- gets n_cur ;;
  c <- update_shared P pid (k_serial cur) hk ;;
  match c with
  | None => ret tt
  | Some c =>
      p <- rd pid ;;
      send_packet (Some sk) (Some raddr) (Some pid) (fun a =>
        OResp pid a (k_serial cur) (mk_msg hk (hc_key c) (wire_resp P p (k_serial cur) hk (hc_key c))))
  end.

Definition compat_of (flags : N) : bool := N.eqb (N.land flags FLAG_L2TP_SUPPORT) 0.
Definition send_error (sk : sock) (raddr : addr) (pid : option N) : M unit :=
  send_packet (Some sk) (Some raddr) pid OErr.

(** [finish_handshake], handshake.c L312-363 *)
Definition finish_handshake (P : params) (sk : sock) (laddr raddr : addr) (pid : N) (serial : N) (hk mac tlv0 : bytes) (w : hsview) : M unit :=
  p <- rd pid ;;
  match get_method_by_name_list (c_methods P (p_group p)) (w_method_list w) with
  | None => send_error sk raddr (Some pid)
  | Some method =>
      match c_shared P true serial (p_key p) hk with
      | None => ret tt
      | Some (sigma, key) =>
          if negb (bytes_eqb (c_mac P key tlv0) mac) then ret tt
          else
            ok <- establish P pid method sk laddr raddr true (compat_of (w_flags w)) hk key sigma serial ;;
            when ok (
              p <- rd pid ;;
              send_packet (Some sk) (Some raddr) (Some pid) (fun a =>
                OFin pid a (mk_msg hk key (wire_fin P p serial hk key method))))
      end
  end.

(** [handle_finish_handshake], handshake.c L366-400 *)
Definition handle_finish_handshake (P : params) (sk : sock) (laddr raddr : addr) (pid : N) (serial : N) (hk mac tlv0 : bytes) (w : hsview) : M unit :=
  p <- rd pid ;;
  match get_method_by_name (c_methods P (p_group p)) (w_method w) with
  | None => send_error sk raddr (Some pid)
  | Some method =>
      c <- update_shared P pid serial hk ;;
      match c with
      | None => ret tt
      | Some c =>
          if negb (bytes_eqb (c_mac P (hc_key c) tlv0) mac) then ret tt
          else
            establish P pid method sk laddr raddr false (compat_of (w_flags w)) hk (hc_key c) (hc_sigma c) serial ;;
            wr pid (set_p_cache None)
      end
  end.

(** [add_dynamic], handshake.c L516-570 *)
Definition dyn_conf (P : params) (key : bytes) : pconf :=
  {| pc_key := key; pc_group := c_verify_group P; pc_dir := false; pc_remotes := []; pc_floating := false;
     pc_ifname := None; pc_mtu := 0 |}.
Definition add_dynamic (P : params) (sk : sock) (key : bytes) : M (option N) :=
  if negb (allow_verify P) then ret None
  else match sk with
  | SDyn _ _ => ret None
  | SBound _ =>
      if bytes_eqb (c_own P) key then ret None
      else
      l <- gets n_peers ;;
      match find_peer_key l key with
      | Some _ => ret None
      | None =>
          if negb (c_key_ok P key) then ret None
          else if negb (may_connect P l (new_peer 0 (dyn_conf P key) CDynamic 0)) then ret None
          else
            id <- peer_add P (dyn_conf P key) CDynamic ;;
            match id with
            | AddNew id =>
                (* uint64_t: 0 - 1 wraps; the serial number is at least 1 here, see [maintenance] *)
                wr id (fun p => set_p_serial (p_serial p - 1)%N p) ;;
                peer_reset P id ;;
                ret (Some id)
            | AddUnchanged | AddFailed => exit_bug
            end
      end
  end.

(** [fastd_peer_set_verifying], [fastd_peer_set_verified], peer.h L204-217 *)
Definition set_verifying (pid : N) : M unit :=
  now <- gets n_now ;;
  wr pid (fun p => set_p_reset_to (oadvance (p_reset_to p) (now + MIN_VERIFY_INTERVAL)) (set_p_verify_to (now + MIN_VERIFY_INTERVAL) p)).
Definition set_verified (pid : N) (ok : bool) : M unit :=
  now <- gets n_now ;;
  let t := now + (if ok then VERIFY_VALID_TIME else 0) in
  wr pid (fun p => set_p_reset_to (oadvance (p_reset_to p) t) (set_p_valid_to t p)).

(** [fastd_verify_peer], verify.c L80-127: Some for a known result, None if a
    thread was started.  The environment decides if a slot is free and the
    thread can be created (C40). *)
Definition verify_peer (P : params) (pid : N) (sk : sock) (laddr raddr : addr) (hk : bytes) (flags : N) : M (option bool) :=
  match c_verify P with
  | None => exit_bug
  | Some sync =>
      set_verifying pid ;;
      p <- rd pid ;;
      if sync then
        ok <- flip ;;
        emit (OVerdict pid (p_key p) raddr ok) ;;
        set_verified pid ok ;;
        ret (Some ok)
      else
        started <- flip ;;
        if negb started then ret (Some false)
        else
          emit (OVerifyStart pid raddr) ;;
          modn (fun n => set_n_verifying (mk_vjob pid sk laddr raddr hk flags :: n_verifying n) n) ;;
          ret None
  end.

(** [handle_dynamic], handshake.c L573-598 *)
Definition handle_dynamic (P : params) (sk : sock) (laddr raddr : addr) (pid : N) (hk : bytes) (w : hsview) : M bool :=
  p <- rd pid ;;
  now <- gets n_now ;;
  if ((2 <? w_type w)%N || negb (timed_out now (p_verify_to p)))%bool then ret (negb (timed_out now (p_valid_to p)))
  else
    v <- verify_peer P pid sk laddr raddr hk (w_flags w) ;;
    match v with
    | None => ret false
    | Some true => ret true
    | Some false => peer_delete P pid ;; ret false
    end.

(** [fastd_protocol_ec25519_fhmqvc_handle_verify_return], handshake.c L601-612,
    and [handle_verify_return], async.c L62-75 *)
Definition verify_return (P : params) (j : vjob) (ok : bool) : M unit :=
  l <- gets n_peers ;;
  match find_id l (v_peer j) with
  | None => ret tt
  | Some p =>
      if negb (is_dynamic p) then exit_bug
      else
        emit (OVerdict (p_id p) (p_key p) (v_raddr j) ok) ;;
        set_verified (p_id p) ok ;;
        if negb ok then ret tt
        else
          now <- gets n_now ;;
          wr (p_id p) (fun p => set_p_lhr_to (now + MIN_HANDSHAKE_INTERVAL) (set_p_lhr_addr (Some (v_raddr j)) p)) ;;
          respond_handshake P (v_sock j) (v_raddr j) (p_id p) (v_hk j)
  end.

(** [fastd_protocol_ec25519_fhmqvc_handshake_handle] after the sender was found,
    handshake.c L658-769 *)
Definition key_matches (P : params) (now : Z) (k : hkey) (rh : bytes) : bool :=
  (negb (timed_out now (k_valid_till k)) && bytes_eqb (c_eph P (k_serial k)) rh)%bool.
Definition handshake_reply (P : params) (sk : sock) (laddr raddr : addr) (pid : N) (hk : bytes) (w : hsview) : M unit :=
  match w_recipient w, w_recipient_hk w, w_mac w with
  | Some _, Some rh, Some (mac, tlv0) =>
      now <- gets n_now ;;
      cur <- gets n_cur ;;
      prev <- gets n_prev ;;
      match (if key_matches P now cur rh then Some cur else if key_matches P now prev rh then Some prev else None) with
      | None => ret tt
      | Some k =>
          if N.eqb (w_type w) 2 then finish_handshake P sk laddr raddr pid (k_serial k) hk mac tlv0 w
          else if N.eqb (w_type w) 3 then handle_finish_handshake P sk laddr raddr pid (k_serial k) hk mac tlv0 w
          else ret tt
      end
  | _, _, _ => ret tt
  end.
Definition handshake_from (P : params) (sk : sock) (laddr raddr : addr) (pid : N) (w : hsview) : M unit :=
  p <- rd pid ;;
  if match w_mtu w with Some m => negb (N.eqb m (peer_mtu P p)) | None => false end then send_error sk raddr (Some pid)
  else
  match w_sender_hk w with
  | None => ret tt
  | Some hk =>
      l <- gets n_peers ;;
      now <- gets n_now ;;
      if negb (may_connect P l p) then ret tt
      else if negb (timed_out now (p_eh_to p)) then ret tt
      else if match w_recipient w with Some rk => negb (bytes_eqb (c_own P) rk) | None => false end then ret tt
      else
        go <- (if is_dynamic p then handle_dynamic P sk laddr raddr pid hk w else ret true) ;;
        if negb go then ret tt
        else if N.eqb (w_type w) 1 then
          p <- rd pid ;;
          if (negb (timed_out now (p_lhr_to p)) && addr_eqb (Some raddr) (p_lhr_addr p))%bool then ret tt
          else
            wr pid (fun p => set_p_lhr_to (now + MIN_HANDSHAKE_INTERVAL) (set_p_lhr_addr (Some raddr) p)) ;;
            respond_handshake P sk raddr pid hk
        else handshake_reply P sk laddr raddr pid hk w
  end.
(** handshake.c L627-656 *)
Definition proto_handshake (P : params) (sk : sock) (laddr raddr : addr) (pid : option N) (w : hsview) : M unit :=
  maintenance ;;
  match w_sender w with
  | None => ret tt
  | Some key =>
      m <- match_sender_key sk raddr pid key ;;
      match m with
      | MatchPerm => ret tt
      | MatchPeer pid => handshake_from P sk laddr raddr pid w
      | MatchNone =>
          id <- add_dynamic P sk key ;;
          match id with
          | Some id => handshake_from P sk laddr raddr id w
          | None => ret tt
          end
      end
  end.

(** [handle_socket_receive], receive.c L174-240.  The lookup in the hash table is
    the first peer with the address (C31: there is at most one). *)
Definition lookup_addr (l : list peer) (a : addr) : option N :=
  match find (fun p => addr_eqb (p_addr p) (Some a)) l with Some p => Some (p_id p) | None => None end.
Definition receive (P : params) (sk : sock) (laddr raddr : addr) (d : bytes) : M unit :=
  l <- gets n_peers ;;
  src <- match sk with
         | SDyn o _ => p <- rd o ;; ret (if addr_eqb (p_addr p) (Some raddr) then Some (Some o) else None)
         | SBound _ => ret (Some (lookup_addr l raddr))
         end ;;
  match src with
  | None => ret tt
  | Some pid =>
      let cls := classify d in
      can <- match pid with
             | None => ret false
             | Some pid => p <- rd pid ;; ret (is_established p && addr_eqb (p_laddr p) (Some laddr))%bool
             end ;;
      floating <- gets n_floating ;;
      match pid, cls, can with
      | Some pid, PData pkt _, true => handle_recv P pid (slice pkt 2 6)
      | _, _, _ =>
          if (match pid with None => negb (floating || allow_verify P) | Some _ => false end)%bool then ret tt
          else match cls with
          | PHandshake pkt ctl =>
              o <- lift (handshake_handle (c_hs P) pkt ctl) ;;
              match o with
              | HIgnore => ret tt
              | HError _ _ _ => send_error sk raddr pid
              | HProtocol h => w <- lift (view pkt h) ;; proto_handshake P sk laddr raddr pid w
              end
          | PData _ _ =>
              backoff <- flip ;;
              when (negb backoff) (handshake_init (Some sk) (Some raddr) None)
          | PInvalid => ret tt
          end
      end
  end.

(** ** Timers *)

(** [send_handshake], peer.c L798-827; the remote is given by its index *)
Definition send_handshake (P : params) (pid : N) (ri : option nat) : M bool :=
  p <- rd pid ;;
  go <- (if negb (is_established p) then
           match ri with
           | None => undefined
           | Some i =>
               r <- rd_remote pid i ;;
               match r_addrs r with
               | [] => ret false
               | _ =>
                   match nth_error (r_addrs r) (r_cur r) with
                   | None => undefined
                   | Some a => claim_address P pid None None a false ;; reset_socket pid ;; ret true
                   end
               end
           end
         else ret true) ;;
  if negb go then ret false
  else
    p <- rd pid ;;
    now <- gets n_now ;;
    match p_sock p, p_addr p with
    | Some sk, Some a =>
        if (negb (timed_out now (p_lh_to p)) && addr_eqb (p_addr p) (p_lh_addr p))%bool then ret false
        else
          wr pid (fun p => set_p_lh_to (now + MIN_HANDSHAKE_INTERVAL) (set_p_lh_addr (p_addr p) p)) ;;
          handshake_init (Some sk) (Some a) (Some pid) ;;
          ret true
    | _, _ => ret false
    end.

(** [handle_task_handshake], peer.c L939-975 *)
Definition task_handshake_next (P : params) (pid : N) : M unit :=
  wr pid (fun p => match p_next_remote p with
                   | Some i => if Nat.ltb i (length (p_remotes p)) then p else set_p_next_remote (Some 0%nat) p
                   | None => set_p_next_remote (Some 0%nat) p
                   end) ;;
  p <- rd pid ;;
  match p_next_remote p with
  | None => undefined
  | Some i =>
      r <- rd_remote pid i ;;
      wr pid (set_remote i (set_r_cur 0)) ;;
      match r_host r with Some _ => resolve_peer pid i | None => ret tt end
  end.
Definition task_handshake (P : params) (pid : N) : M unit :=
  d <- handshake_default_rand ;;
  set_next_handshake pid d ;;
  p <- rd pid ;;
  l <- gets n_peers ;;
  if negb (may_connect P l p) then wr pid (set_p_next_remote None)
  else
    match p_next_remote p, is_established p with
    | None, false => task_handshake_next P pid
    | ri, _ =>
        send_handshake P pid ri ;;
        p <- rd pid ;;
        if is_established p then ret tt
        else
          wr pid (set_p_state Handshaking) ;;
          match ri with
          | None => undefined
          | Some i =>
              r <- rd_remote pid i ;;
              wr pid (set_remote i (set_r_cur (S (r_cur r)))) ;;
              if Nat.ltb (S (r_cur r)) (length (r_addrs r)) then ret tt
              else
                wr pid (fun p => set_p_next_remote (match p_next_remote p with Some i => Some (S i) | None => Some 0%nat end) p) ;;
                task_handshake_next P pid
          end
    end.

(** [fastd_peer_handle_task], peer.c L983-1007, after the task was taken from the queue *)
Definition handle_task (P : params) (pid : N) : M unit :=
  wr pid (set_p_task None) ;;
  p <- rd pid ;;
  now <- gets n_now ;;
  if otimed_out now (p_reset_to p) then
    if is_dynamic p then peer_delete P pid else peer_reset P pid
  else
    when (otimed_out now (p_keep_to p)) (protocol_send P pid ;; clear_keepalive pid) ;;
    p <- rd pid ;;
    when (otimed_out now (p_next_hs p)) (task_handshake P pid) ;;
    schedule_peer_task pid.

(** [fastd_peer_handle_resolve], peer.c L357-368, and [handle_resolve_return], async.c L47-57 *)
Definition resolve_return (P : params) (pid : N) (i : nat) (addrs : list addr) : M unit :=
  l <- gets n_peers ;;
  match find_id l pid with
  | None => ret tt
  | Some p =>
      if negb (is_enabled p) then ret tt
      else if is_dynamic p then exit_bug
      else
        r <- rd_remote pid i ;;
        wr pid (set_remote i (set_r_addrs addrs)) ;;
        match p_state p with Resolving => init_handshake P pid | _ => ret tt end
  end.

(** ** Events.  The number given with an event is the time in milliseconds since
    the previous one. *)
Inductive event :=
| EvRecv (sk : sock) (laddr raddr : addr) (d : bytes)
| EvIface (owner : option N) (src dst : N)   (* a frame read from the interface, of a peer or shared *)
| EvTask (pid : N)
| EvMaintenance                              (* task.c L18-21 *)
| EvResolved (k : nat) (addrs : list addr)   (* the k-th running resolver thread is done *)
| EvVerified (k : nat) (ok : bool)           (* the k-th running verification is done *)
| EvReload (defs : list pconf)
| EvResetAll.

Definition remove_nth {A} (k : nat) (l : list A) : list A := firstn k l ++ skipn (S k) l.

Definition handle (P : params) (e : event) : M unit :=
  match e with
  | EvRecv sk laddr raddr d =>
      l <- gets n_peers ;;
      match sk with
      | SDyn o _ => when (sock_alive l sk) (receive P sk laddr raddr d)   (* only existing sockets receive anything *)
      | SBound _ => receive P sk laddr raddr d
      end
  | EvIface owner src dst =>
      l <- gets n_peers ;;
      match owner with
      | None => send_data P None None src dst
      | Some o =>
          match find_id l o with
          | Some p => when (p_iface p) (send_data P None (Some o) src dst)
          | None => ret tt
          end
      end
  | EvTask pid =>
      l <- gets n_peers ;;
      now <- gets n_now ;;
      match find_id l pid with
      | Some p => when (otimed_out now (p_task p)) (handle_task P pid)
      | None => ret tt
      end
  | EvMaintenance => eth_cleanup
  | EvResolved k addrs =>
      l <- gets n_resolving ;;
      match nth_error l k with
      | Some (pid, i) => modn (set_n_resolving (remove_nth k l)) ;; resolve_return P pid i addrs
      | None => ret tt
      end
  | EvVerified k ok =>
      l <- gets n_verifying ;;
      match nth_error l k with
      | Some j => modn (set_n_verifying (remove_nth k l)) ;; verify_return P j ok
      | None => ret tt
      end
  | EvReload defs => load_peer_dirs P false (map (fun c => mk_pconf (pc_key c) (pc_group c) true (pc_remotes c) (pc_floating c) (pc_ifname c) (pc_mtu c)) defs)
  | EvResetAll => reset_all P
  end.

Definition step (P : params) (ev : N * event) : M unit :=
  modn (fun n => set_n_now (n_now n + Z.of_N (fst ev)) n) ;; handle P (snd ev).
Definition run (P : params) (evs : list (N * event)) : M unit := each (step P) evs.

(** Start, fastd.c L500-541: the peers of the configuration file are added (an
    invalid definition stops the program, config.y L440-445) and configured, then
    the peer directories are read *)
Definition start (P : params) (static dirs : list pconf) : M unit :=
  each (fun c => r <- (peer_add P (mk_pconf (pc_key c) (pc_group c) false (pc_remotes c) (pc_floating c) (pc_ifname c) (pc_mtu c)) CNew) ;;
                  match r with AddFailed => exit_fatal | _ => ret tt end) static ;;
  configure_peers P false ;;
  load_peer_dirs P true (map (fun c => mk_pconf (pc_key c) (pc_group c) true (pc_remotes c) (pc_floating c) (pc_ifname c) (pc_mtu c)) dirs).

(** The state before the configuration is read.  The first handshake key is
    generated when it is needed (state.c L19-26). *)
Definition empty_node (now : Z) (orc : list N) : node :=
  {| n_now := now; n_peers := []; n_next_id := 1; n_cur := mk_hkey 0 now 0; n_prev := mk_hkey 0 now 0;
     n_eth := []; n_floating := false; n_resolving := []; n_verifying := []; n_next_sid := 0; n_next_sock := 0;
     n_orc := orc; n_out := [] |}.

(** A whole execution: start, then events *)
Definition execute (P : params) (now : N) (orc : list N) (static dirs : list pconf) (evs : list (N * event)) : res node :=
  match (start P static dirs ;; run P evs) (empty_node (Z.of_N now) orc) with
  | Ok (_, n) => Ok n
  | Bug => Bug | Fatal => Fatal | UB => UB
  end.
