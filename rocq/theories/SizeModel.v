(** Buffer sizes: configuration of headrooms, overhead and the buffer size;
    the receive path from the socket to a method's decrypt function.
    Source: src/config.c, src/fastd.h, src/receive.c, src/iface.c, src/send.c. *)
From Verif Require Import Base NonceModel BufferModel MethodModel.

(** The method providers with their sizes (provider structs at the end of the
    files in src/methods). *)
Inductive provider := PNull | PL2tp | PKeyed (sh : shape).

Definition p_overhead (p : provider) : nat :=
  match p with PNull => 1 | PL2tp => 8 | PKeyed sh => provider_overhead sh end.
Definition p_encrypt_headroom (p : provider) : nat :=
  match p with PNull => 1 | PL2tp => 8 | PKeyed sh => provider_encrypt_headroom sh end.
Definition p_decrypt_headroom (p : provider) : nat :=
  match p with PKeyed Poly1305 => 16 | _ => 0 end.

Inductive mode := MTap | MMultitap | MTun.

(** [fastd_max_payload], fastd.h L478-488; an Ethernet header has 14 bytes *)
Definition max_payload (m : mode) (mtu : nat) : nat :=
  match m with MTap | MMultitap => mtu + 14 | MTun => mtu end.

(** handshake.h L25 *)
Definition MAX_HANDSHAKE_SIZE : nat := 1232.

Definition max_over (f : provider -> nat) (ps : list provider) : nat :=
  fold_left (fun a p => Nat.max a (f p)) ps 0.

Record sizes := mk_sizes {
  z_overhead : nat;         (* conf.overhead *)
  z_encrypt_headroom : nat; (* conf.encrypt_headroom *)
  z_decrypt_headroom : nat; (* conf.decrypt_headroom *)
  z_max_mtu : nat;          (* ctx.max_mtu *)
  z_max_buffer : nat        (* ctx.max_buffer *)
}.

(** ctx.max_mtu as computed in [configure_peers], config.c L632, L659-660;
    [peer_mtus] are the [mtu] fields (0 if not set) of the enabled configured
    peers *)
Definition max_mtu (m : mode) (mtu : nat) (peer_mtus : list nat) : nat :=
  match m with
  | MTap => mtu
  | _ => fold_left Nat.max peer_mtus mtu
  end.

(** [configure_method_parameters], config.c L469-488, and the end of
    [configure_peers], config.c L671-674 *)
Definition configure (ps : list provider) (m : mode) (mtu : nat) (peer_mtus : list nat) : sizes :=
  let overhead := max_over p_overhead ps in
  let eh := alignto (max_over p_encrypt_headroom ps) 16 in
  let dh := alignto (max_over p_decrypt_headroom ps) 16 + 8 in
  let mm := max_mtu m mtu peer_mtus in
  let headroom := Nat.max (eh + 16) (dh + overhead) in
  {| z_overhead := overhead; z_encrypt_headroom := eh; z_decrypt_headroom := dh;
     z_max_mtu := mm;
     z_max_buffer := alignto (Nat.max (headroom + max_payload m mm) MAX_HANDSHAKE_SIZE) 16 |}.

Definition size_cfg (z : sizes) : mcfg :=
  {| m_encrypt_headroom := z_encrypt_headroom z; m_max_buffer := z_max_buffer z |}.

(** [fastd_receive], receive.c L243-286: allocate, receive a datagram.  A
    datagram longer than the buffer is truncated by recvmsg. *)
Definition recv_max_len (m : mode) (z : sizes) : nat :=
  Nat.max (max_payload m (z_max_mtu z) + z_overhead z) MAX_HANDSHAKE_SIZE.
Definition receive (m : mode) (z : sizes) (garbage datagram : bytes) : res buf :=
  do b <- b_alloc (z_max_buffer z) garbage (recv_max_len m z) (z_decrypt_headroom z);
  let d := firstn (recv_max_len m z) datagram in
  do mem <- write (b_mem b) (b_off b) d;
  Ok {| b_mem := mem; b_off := b_off b; b_len := length d |}.

(** The control header part of [handle_socket_receive], receive.c L196-216:
    PACKET_CONTROL = 0xC8, version in the low 4 bits of the second byte.
    [None]: the packet is dropped. *)
Definition strip_control (b : buf) : res (option buf) :=
  do t <- read (b_mem b) (b_off b) 1;
  if N.eqb (nth 0 t 0%N) 200 then
    if Nat.ltb (b_len b) (12 + 1) then Ok None
    else
    do h <- read (b_mem b) (b_off b) 12;
    do b <- b_pull b 12;
    if negb (N.eqb (N.land (nth 1 h 0%N) 15) 3) then Ok None
    else Ok (Some b)
  else Ok (Some b).

(** Reading a packet from the TUN/TAP interface, iface.c L427-446 (platforms
    without the 4-byte address family header) *)
Definition iface_read (m : mode) (z : sizes) (iface_mtu : nat) (garbage frame : bytes) : res buf :=
  do b <- b_alloc (z_max_buffer z) garbage (max_payload m iface_mtu) (z_encrypt_headroom z);
  let d := firstn (max_payload m iface_mtu) frame in
  do mem <- write (b_mem b) (b_off b) d;
  Ok {| b_mem := mem; b_off := b_off b; b_len := length d |}.

(** Multi-address-family TUN interfaces (multiaf_tun: the BSDs), iface.c
    L431-432, L442-443 *)
Definition iface_read_multiaf (m : mode) (z : sizes) (iface_mtu : nat) (garbage frame : bytes) : res buf :=
  do b <- b_alloc (z_max_buffer z) garbage (max_payload m iface_mtu + 4) (z_encrypt_headroom z + (16 - 4));
  let d := firstn (max_payload m iface_mtu) frame in
  do mem <- write (b_mem b) (b_off b) d;
  b_pull {| b_mem := mem; b_off := b_off b; b_len := length d |} 4.

(** Receive path of a data packet for a peer with one session of a keyed
    method. *)
Definition receive_data (now : Z) (m : mode) (z : sizes) (cy : crypto) (sh : shape) (s : session)
    (g1 g2 datagram : bytes) : res (option dec_result) :=
  do b <- receive m z g1 datagram;
  do ob <- strip_control b;
  match ob with
  | None => Ok None
  | Some b => do r <- session_decrypt now (size_cfg z) cy sh s b g2; Ok (Some r)
  end.

(** Forwarding a decrypted frame (TAP mode with forwarding): align, then for
    each destination duplicate (or not, for the last) and encrypt.
    receive.c L313-326, send.c L159-176 *)
Definition forward (z : sizes) (cy : crypto) (sh : shape) (s : session) (dup : bool)
    (b : buf) (g1 g2 g3 : bytes) : res enc_result :=
  do b <- b_align (z_max_buffer z) g1 b (z_encrypt_headroom z);
  do b <- (if dup then b_dup (z_max_buffer z) g2 b (z_encrypt_headroom z) else Ok b);
  session_encrypt (size_cfg z) cy sh s b g3.

(** Keepalives: peer.c L999 (first) and
    [fastd_protocol_ec25519_fhmqvc_send_empty] (second). *)
Definition keepalive_buf (z : sizes) (garbage : bytes) : res buf :=
  b_alloc (z_max_buffer z) garbage 0 (z_encrypt_headroom z).
Definition empty_buf (z : sizes) (sh : shape) (garbage : bytes) : res buf :=
  b_alloc (z_max_buffer z) garbage 0 (alignto (provider_encrypt_headroom sh) 8).
