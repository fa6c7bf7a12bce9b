(** C67: packets are sent on a socket that fits, from the address the peer knows *)
From Coq Require Import List NArith Bool.
From Verif Require Import Base BufferModel AddrModel AddrSpec SockModel SockSpec SockProofs SockProofs2.
Import ListNotations.
Local Open Scope N_scope.

(** Whatever bytes the control messages of a packet consist of, looking for its destination
    address does not access memory outside of them. *)
Theorem C67_control_safe : forall ctl bound, exists a, handle_socket_control ctl bound = Ok a.
Proof. exact handle_control_safe. Qed.

(** A reply to a packet goes to its sender on the socket on which it was received; the
    system accepts the address, and is asked to send it from the address the packet was
    sent to: for a link-local address on the same interface, and for a v4-mapped address
    as IPv4. *)
Theorem C67_reply : forall s bound name msgs t, Forall cmsg_ok msgs -> target_of msgs = Some t ->
  swf name -> accepts (kind_of s) name = true ->
  exists name' ctl', reply true s bound name (layout msgs) = Ok [OSend s name' ctl'] /\
    same_host name' name /\ accepts (kind_of s) name' = true /\ asks ctl' (send_from t).
Proof. exact reply_ok. Qed.

(** Packets without such a message are dropped. *)
Theorem C67_unknown_target : forall v6 s bound name msgs, Forall cmsg_ok msgs -> target_of msgs = None ->
  reply v6 s bound name (layout msgs) = Ok [].
Proof. exact reply_none. Qed.

(** When a handshake received in this way has established a connection, the same is true
    of payload. *)
Theorem C67_data : forall c p b bound name msgs t, Forall cmsg_ok msgs -> target_of msgs = Some t ->
  swf name -> accepts (kind_of (PBound b)) name = true ->
  exists local remote p1 o1 name' ctl', received (layout msgs) bound name = Ok (Some (local, remote)) /\
    step c true (EEstablish (VBound b) local remote true true) p = Ok (p1, o1) /\ p_est p1 = true /\
    step c true EData p1 = Ok (p1, [OSend (PBound b) name' ctl']) /\
    same_host name' name /\ accepts (kind_of (PBound b)) name' = true /\ asks ctl' (send_from t).
Proof. exact data_sent. Qed.

(** For every configuration and every sequence of events in which no default socket is
    unusable for an address that is tried, the program never fails for lack of a socket or
    an address, and all packets are sent on sockets that can be used for their destination. *)
Theorem C67_fits : forall c es, configured c -> Forall event_ok es -> defaults_fit c es ->
  exists p o, run c true es new_peer = Ok (p, o) /\ sendable o.
Proof. exact all_sendable. Qed.

(** This condition is met if there are no bind addresses, only ones for both families, or
    only ones that use a random port. *)
Theorem C67_fits_any : forall c es, configured c -> (forall b, In b (c_binds c) -> b_fam b = FUnspec \/ b_dynamic b = true) ->
  Forall event_ok es -> defaults_fit c es.
Proof. exact any_fits. Qed.

(** Without it the claim is false: with separate sockets for IPv4 and IPv6, when an IPv4
    address was tried first, every IPv6 address that is tried afterwards is used on the
    IPv4 socket, on which the system does not accept it, as long as no connection is
    established; the IPv6 socket is not used at all. *)
Theorem C67_fits_refuted : exists c b4 b6 a4, configured c /\
  default_sock c FInet = Some (PBound b4) /\ default_sock c FInet6 = Some (PBound b6) /\ kind_of (PBound b6) = KInet6 /\
  exists p o, step c true (ETry a4 true true) new_peer = Ok (p, o) /\ sendable o /\ length o = 1%nat /\
  forall es, Forall (fun e => exists ip port flow scope, e = ETry (AInet6 ip port flow scope) true true) es ->
    exists p' o', run c true es p = Ok (p', o') /\ length o' = length es /\
      forall x, In x o' -> exists name ctl, x = OSend (PBound b4) name ctl /\ accepts (kind_of (PBound b4)) name = false.
Proof. exact stuck_witness. Qed.

(** Every socket that was opened for a peer is either closed or still used by the peer;
    there is never more than one. *)
Theorem C67_closed : forall c v6 es p o k, run c v6 es new_peer = Ok (p, o) ->
  length (filter (is_open k) o) = (length (filter (is_close k) o) + holds k (p_sock p))%nat.
Proof. exact all_closed. Qed.

(** A packet to a link-local address, behind another control message, on a socket for both families *)
Example C67_nonvacuous_reply :
  let ll := [0xfe; 0x80; 0; 0; 0; 0; 0; 0; 2; 0; 0; 0xff; 0xfe; 0; 0; 1] in
  let msgs := [mk_cmsg 1 29 [1; 2; 3]; mk_cmsg 41 50 (ll ++ [3; 0; 0; 0])] in
  let name := AInet6 [0xfe; 0x80; 0; 0; 0; 0; 0; 0; 0; 0; 0; 0; 0; 0; 0; 9] [0x27; 0x10] [0; 0; 0; 0] [3; 0; 0; 0] in
  let s := PBound (mk_bind 1 FUnspec false) in
  Forall cmsg_ok msgs /\ target_of msgs = Some (T6 ll [3; 0; 0; 0]) /\ swf name /\ accepts (kind_of s) name = true /\
  send_from (T6 ll [3; 0; 0; 0]) = mk_cmsg 41 50 (ll ++ [3; 0; 0; 0]).
Proof.
  cbn zeta. split.
  { repeat constructor; try (vm_compute; reflexivity); intros; try (vm_compute in *; discriminate); vm_compute; reflexivity. }
  repeat split; try (vm_compute; reflexivity); repeat constructor; vm_compute; reflexivity.
Qed.

(** Two addresses of different families without bind addresses: a socket is opened for
    each; the second one leads to a connection, which is lost again *)
Example C67_nonvacuous :
  let a4 := AInet [192; 0; 2; 1] [0x27; 0x10] in
  let a6 := AInet6 [0x20; 1; 0xd; 0xb8; 0; 0; 0; 0; 0; 0; 0; 0; 0; 0; 0; 1] [0x27; 0x10] [0; 0; 0; 0] [0; 0; 0; 0] in
  let es := [ETry a4 true true; ETry a6 true true; EEstablish VOwn a6 a6 true true; EData; EReset] in
  configured no_binds /\ Forall event_ok es /\
  match run no_binds true es new_peer with
  | Ok (p, [OOpen KInet; OSend (PDyn KInet) _ _; OClose KInet; OOpen KInet6; OSend (PDyn KInet6) _ _; OSend (PDyn KInet6) _ _; OClose KInet6]) => p = new_peer
  | _ => False
  end.
Proof.
  cbn zeta. split; [constructor|]. split.
  { repeat constructor; vm_compute; reflexivity. }
  vm_compute. reflexivity.
Qed.

Print Assumptions C67_control_safe.
Print Assumptions C67_reply.
Print Assumptions C67_unknown_target.
Print Assumptions C67_data.
Print Assumptions C67_fits.
Print Assumptions C67_fits_any.
Print Assumptions C67_fits_refuted.
Print Assumptions C67_closed.
