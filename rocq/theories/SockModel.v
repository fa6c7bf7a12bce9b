(** Sockets: their choice, the addresses given to and taken from the system.
    socket.c, send.c L20-149, receive.c L22-70 and L242-289, the functions of peer.c that
    set a peer's socket or addresses, config.c L122-156, fastd.c L138-164.  Linux on a
    little-endian 64-bit system (USE_PKTINFO and USE_MULTIAF_BIND defined, not Android).
    Offload sockets are not included: packets received on them are handled as if received
    on the socket they were made from (receive.c L176-178). *)
From Verif Require Import Base BufferModel AddrModel.
Local Open Scope N_scope.

(** ** Control messages *)

Definition mread (off n : nat) (m : bytes) : res bytes :=
  if Nat.leb (off + n) (length m) then Ok (firstn n (skipn off m)) else UB.
Definition mwrite (off : nat) (d m : bytes) : res bytes :=
  if Nat.leb (off + length d) (length m) then Ok (firstn off m ++ d ++ skipn (off + length d) m) else UB.

Definition IPPROTO_IP : N := 0.
Definition IPPROTO_IPV6 : N := 41.
Definition IP_PKTINFO : N := 8.
Definition IPV6_PKTINFO : N := 50.

(** struct cmsghdr (length, level, type; 16 bytes), struct in_pktinfo (interface, spec_dst,
    addr; 12 bytes), struct in6_pktinfo (address, interface; 20 bytes) *)
Definition CMSG_HDR : nat := 16.
Definition PKTINFO4 : nat := 12.
Definition PKTINFO6 : nat := 20.

(** [fastd_peer_address_get_port], peer.h L158-169 *)
Definition get_port (a : saddr) : bytes :=
  match a with
  | AInet _ port => port
  | AInet6 _ port _ _ => port
  | _ => [0; 0]
  end.

(** CMSG_NXTHDR as defined by glibc: the offset of the next header if the current one is
    well-formed and there is room for another header *)
Definition next_header (off : nat) (ctl : bytes) : res (option nat) :=
  do len <- mread off 8 ctl;
  let len := le_val len in
  let room := N.of_nat (length ctl - off) in
  if len <? 16 then Ok None
  else
    let needed := 16 + (8 - len mod 8) mod 8 in
    if (room <? needed) || (room - needed <? len) then Ok None
    else Ok (Some (off + N.to_nat (len + (8 - len mod 8) mod 8))%nat).

(** The loop of [handle_socket_control], receive.c L31-69.  [fuel]: an upper bound for the
    number of headers. *)
Fixpoint control_loop (fuel : nat) (off : nat) (ctl : bytes) (bound : saddr) : res saddr :=
  match fuel with
  | O => Bug
  | S fuel =>
      if Nat.ltb (length ctl) (off + CMSG_HDR) then Ok AUnspec
      else
        do level <- mread (off + 8) 4 ctl;
        do type <- mread (off + 12) 4 ctl;
        let data := (off + CMSG_HDR)%nat in
        if (le_val level =? IPPROTO_IP) && (le_val type =? IP_PKTINFO) then
          if Nat.ltb (length ctl) (data + PKTINFO4) then Ok AUnspec
          else
            do info <- mread data PKTINFO4 ctl;
            Ok (AInet (firstn 4 (skipn 8 info)) (get_port bound))
        else if (le_val level =? IPPROTO_IPV6) && (le_val type =? IPV6_PKTINFO) then
          if Nat.ltb (length ctl) (data + PKTINFO6) then Ok AUnspec
          else
            do info <- mread data PKTINFO6 ctl;
            let ip := firstn 16 info in
            Ok (AInet6 ip (get_port bound) [0; 0; 0; 0] (if is_linklocal ip then skipn 16 info else [0; 0; 0; 0]))
        else
          do next <- next_header off ctl;
          match next with
          | None => Ok AUnspec
          | Some off => control_loop fuel off ctl bound
          end
  end.

(** [handle_socket_control], receive.c L22-70: [ctl] are the msg_controllen bytes of
    control messages (CMSG_FIRSTHDR: none if that is less than a header) *)
Definition handle_socket_control (ctl : bytes) (bound : saddr) : res saddr :=
  if Nat.ltb (length ctl) CMSG_HDR then Ok AUnspec else control_loop (length ctl) 0 ctl bound.

(** [fastd_receive], receive.c L267-288: the local and the remote address of a packet,
    None if it is dropped *)
Definition received (ctl : bytes) (bound name : saddr) : res (option (saddr * saddr)) :=
  do local <- handle_socket_control ctl bound;
  match local with
  | AUnspec => Ok None
  | _ => Ok (Some (address_simplify local, address_simplify name))
  end.

(** [add_pktinfo], send.c L24-66: the control messages, in a buffer of 1024 bytes *)
Definition add_pktinfo (local : option saddr) : res bytes :=
  let cbuf := repeat 0 1024 in
  match local with
  | Some (AInet ip _) =>
      do m <- mwrite 8 (le_bytes 4 IPPROTO_IP) cbuf;
      do m <- mwrite 12 (le_bytes 4 IP_PKTINFO) m;
      do m <- mwrite 0 (le_bytes 8 (N.of_nat (CMSG_HDR + PKTINFO4))) m;
      do m <- mwrite CMSG_HDR (repeat 0 4 ++ ip ++ repeat 0 4) m;
      mread 0 (CMSG_HDR + PKTINFO4) m
  | Some (AInet6 ip _ _ scope) =>
      do m <- mwrite 8 (le_bytes 4 IPPROTO_IPV6) cbuf;
      do m <- mwrite 12 (le_bytes 4 IPV6_PKTINFO) m;
      do m <- mwrite 0 (le_bytes 8 (N.of_nat (CMSG_HDR + PKTINFO6))) m;
      do m <- mwrite CMSG_HDR (ip ++ (if is_linklocal ip then scope else repeat 0 4)) m;
      mread 0 (CMSG_HDR + PKTINFO6) m
  | _ => Ok []
  end.

(** ** Sockets *)

Inductive fam : Set := FUnspec | FInet | FInet6.
Definition fam_of (a : saddr) : fam :=
  match a with AInet _ _ => FInet | AInet6 _ _ _ _ => FInet6 | _ => FUnspec end.
Definition fam_eqb (a b : fam) : bool :=
  match a, b with FUnspec, FUnspec | FInet, FInet | FInet6, FInet6 => true | _, _ => false end.

(** Kinds of sockets: IPv4, IPv6 with IPV6_V6ONLY, IPv6 without *)
Inductive kind : Set := KInet | KInet6 | KDual.

(** A bind address, [fastd_bind_address_t] fastd.h L142-151; [b_id] identifies it *)
Record bindaddr := mk_bind { b_id : N; b_fam : fam; b_dynamic : bool }.

(** [bind_socket], socket.c L22-165: the kind of the socket, None if it fails.  [v6]: the
    system supports IPv6; [ok]: everything else succeeds.  (That there is no IPv4 either
    ends the program.) *)
Definition bind_socket (v6 ok : bool) (f : fam) : option kind :=
  if negb ok then None
  else
    match f with
    | FInet => Some KInet
    | FInet6 => if v6 then Some KInet6 else None
    | FUnspec => Some (if v6 then KDual else KInet)
    end.

(** Bind addresses, newest first, and the defaults *)
Record config := mk_config { c_binds : list bindaddr; c_def4 : option bindaddr; c_def6 : option bindaddr }.
Definition no_binds : config := mk_config [] None None.

(** [fastd_config_bind_address], config.c L122-156; [flag4], [flag6]: `default ipv4', `default ipv6' *)
Definition config_bind (b : bindaddr) (flag4 flag6 : bool) (c : config) : config :=
  let unset (o : option bindaddr) := match o with None => true | Some _ => false end in
  mk_config (b :: c_binds c)
    (if (negb (fam_eqb (b_fam b) FInet6) && (flag4 || unset (c_def4 c)))%bool then Some b else c_def4 c)
    (if (negb (fam_eqb (b_fam b) FInet) && (flag6 || unset (c_def6 c)))%bool then Some b else c_def6 c).

(** A socket: one for a bind address (sock->addr set), opened at startup, or one opened for
    a peer (sock->peer set) *)
Inductive psock : Set := PBound (b : bindaddr) | PDyn (k : kind).

(** [init_sockets], fastd.c L138-164: ctx.sock_default_v4 and ctx.sock_default_v6 *)
Definition default_sock (c : config) (f : fam) : option psock :=
  match (match f with FInet => c_def4 c | FInet6 => c_def6 c | FUnspec => None end) with
  | Some b => if b_dynamic b then None else Some (PBound b)
  | None => None
  end.

(** [fastd_socket_open], socket.c L225-256 *)
Definition socket_open (c : config) (v6 ok : bool) (f : fam) : option psock :=
  let open f := option_map PDyn (bind_socket v6 ok f) in
  match f, c_def4 c, c_def6 c with
  | FInet, Some b, _ => open (b_fam b)
  | FInet6, _, Some b => open (b_fam b)
  | _, None, None => open f
  | _, _, _ => None
  end.

(** ** One peer *)

Record peer := mk_peer {
  p_est : bool;           (* state == STATE_ESTABLISHED *)
  p_addr : saddr;         (* address *)
  p_local : saddr;        (* local_address *)
  p_sock : option psock   (* sock *)
}.
Definition new_peer : peer := mk_peer false AUnspec AUnspec None.

Inductive out : Set :=
| OOpen (k : kind)                              (* a socket is opened for the peer *)
| OClose (k : kind)                             (* and closed *)
| OSend (s : psock) (name : saddr) (ctl : bytes). (* sendmsg on a socket: address and control messages *)

(** [bound_addr]'s family *)
Definition bound6 (v6 : bool) (s : psock) : bool :=
  match s with
  | PDyn KInet => false
  | PDyn _ => true
  | PBound b => match b_fam b with FInet => false | FInet6 => true | FUnspec => v6 end
  end.

(** [fastd_send], send.c L69-112, up to the first sendmsg (the second one, if any, only
    differs in having no control messages) *)
Definition fastd_send (v6 : bool) (s : option psock) (local : option saddr) (remote : saddr) : res (list out) :=
  match s with
  | None => Bug
  | Some s =>
      match remote with
      | AInet _ _ | AInet6 _ _ _ _ =>
          let name := if bound6 v6 s then address_widen remote else remote in
          do ctl <- add_pktinfo local;
          Ok [OSend s name ctl]
      | _ => Bug
      end
  end.

(** [free_socket], peer.c L170-183 *)
Definition free_socket (p : peer) : peer * list out :=
  (mk_peer (p_est p) (p_addr p) (p_local p) None,
   match p_sock p with Some (PDyn k) => [OClose k] | _ => [] end).

(** [fastd_peer_is_socket_dynamic], peer.h L266-268 *)
Definition sock_dynamic (p : peer) : bool := match p_sock p with Some (PBound _) => false | _ => true end.

(** [fastd_peer_reset_socket], peer.c L201-228 *)
Definition reset_socket (c : config) (v6 ok : bool) (p : peer) : peer * list out :=
  match p_addr p with
  | AUnspec => free_socket p
  | a =>
      if negb (sock_dynamic p) then (p, [])
      else
        let '(p, o) := free_socket p in
        let set s := mk_peer (p_est p) (p_addr p) (p_local p) s in
        match fam_of a with
        | FUnspec => (p, o)
        | f =>
            match default_sock c f with
            | Some s => (set (Some s), o)
            | None =>
                match socket_open c v6 ok f with
                | Some (PDyn k) => (set (Some (PDyn k)), o ++ [OOpen k])
                | s => (set s, o)
                end
            end
        end
  end.

(** [reset_peer], peer.c L292-337: only socket, addresses and state *)
Definition reset_peer (p : peer) : peer * list out := let '(p, o) := free_socket p in (mk_peer false AUnspec AUnspec None, o).

(** [reset_peer_address], peer.c L547-554; [fastd_peer_reset] resets the peer *)
Definition reset_peer_address (p : peer) : peer * list out :=
  if p_est p then reset_peer p else (mk_peer (p_est p) AUnspec (p_local p) (p_sock p), []).

(** [fastd_peer_claim_address], peer.c L602-649.  [free]: no other peer prevents it.  The
    socket a handshake was received on: that of a bind address, the peer's own, that of
    another peer, or none *)
Inductive via : Set := VNone | VBound (b : bindaddr) | VOwn | VOther.
Definition claim_address (v : via) (local : option saddr) (a : saddr) (free : bool) (p : peer) : peer * list out * bool :=
  if negb free then let '(p, o) := reset_peer_address p in (p, o, false)
  else
    let p := mk_peer (p_est p) a (p_local p) (p_sock p) in
    let '(p, o) :=
      match v with
      | VBound b =>
          if (match p_sock p with Some (PBound b') => b_id b =? b_id b' | _ => false end) then
            (mk_peer (p_est p) (p_addr p) (p_local p) (Some (PBound b)), []) (* the same socket *)
          else let '(p, o) := free_socket p in (mk_peer (p_est p) (p_addr p) (p_local p) (Some (PBound b)), o)
      | _ => (p, [])
      end in
    (mk_peer (p_est p) (p_addr p) (match local with Some l => l | None => p_local p end) (p_sock p), o, true).

Inductive event : Set :=
| ETry (a : saddr) (free ok : bool)   (* [send_handshake] while not established: the next address *)
| EAgain                              (* [send_handshake] while established *)
| EData                               (* payload sent by [session_send], ec25519_fhmqvc.c L160-177 *)
| EEstablish (v : via) (local remote : saddr) (free ok : bool)
    (* [establish], handshake.c L111-154: a handshake was completed *)
| EReset                              (* [fastd_peer_reset] *)
| EStolen.                            (* another peer claims the address *)

(** [send_handshake], peer.c L800-827, without its rate limit *)
Definition send_init (v6 : bool) (p : peer) : res (list out) :=
  match p_sock p, p_addr p with
  | None, _ => Ok []
  | _, AUnspec => Ok []
  | s, a => fastd_send v6 s (Some (p_local p)) a
  end.

Definition step (c : config) (v6 : bool) (e : event) (p : peer) : res (peer * list out) :=
  match e with
  | ETry a free ok =>
      if p_est p then Ok (p, [])
      else
        let '(p, o1, _) := claim_address VNone None a free p in
        let '(p, o2) := reset_socket c v6 ok p in
        do o3 <- send_init v6 p;
        Ok (p, o1 ++ o2 ++ o3)
  | EAgain => if p_est p then do o <- send_init v6 p; Ok (p, o) else Ok (p, [])
  | EData => if p_est p then do o <- fastd_send v6 (p_sock p) (Some (p_local p)) (p_addr p); Ok (p, o) else Ok (p, [])
  | EEstablish v local remote free ok =>
      (* on the peer's own socket only packets from its address are accepted, receive.c L180-185 *)
      if (match v, p_sock p with VOwn, Some (PDyn _) => negb (address_equal (p_addr p) remote) | VOwn, _ => true | _, _ => false end)
      then Ok (p, [])
      else
        let '(p, o, claimed) := claim_address v (Some local) remote free p in
        if (claimed && ok)%bool then Ok (mk_peer true (p_addr p) (p_local p) (p_sock p), o)
        else let '(p, o') := reset_peer p in Ok (p, o ++ o')
  | EReset => Ok (reset_peer p)
  | EStolen => Ok (reset_peer_address p)
  end.

Fixpoint run (c : config) (v6 : bool) (es : list event) (p : peer) : res (peer * list out) :=
  match es with
  | [] => Ok (p, [])
  | e :: es =>
      do (p, o) <- step c v6 e p;
      do (p, o') <- run c v6 es p;
      Ok (p, o ++ o')
  end.

(** A reply to a packet received on socket [s] whose bound address is [bound]: the sender's
    address and the control messages as returned by recvmsg; handshake replies, error
    replies and handshakes to unknown senders all use the socket and the addresses of the
    packet (handshake.c L275-299, protocols/ec25519_fhmqvc/handshake.c) *)
Definition reply (v6 : bool) (s : psock) (bound name : saddr) (ctl : bytes) : res (list out) :=
  do r <- received ctl bound name;
  match r with
  | None => Ok []
  | Some (local, remote) => fastd_send v6 (Some s) (Some local) remote
  end.
