(** Property theorems C43-C45: buffer sizes and alignment on whole paths. *)
From Verif Require Import Base NonceModel BufferModel MethodModel MethodSpec MethodProofs2 SizeModel SizeProofs.

(** ** C43  Buffers are always large enough *)

(** Full statement: for every configuration, receiving any datagram succeeds,
      forall ps m mtu pm g d, length g = z_max_buffer (configure ps m mtu pm) ->
        exists b, receive m (configure ps m mtu pm) g d = Ok b.
    It is false; receiving stops the daemon exactly for the configurations
    whose buffers cannot hold a handshake behind the decrypt headroom. *)
Theorem C43_receive_fatal_exactly :
  forall ps m mtu pm g d,
    length g = z_max_buffer (configure ps m mtu pm) ->
    (receive m (configure ps m mtu pm) g d = Fatal <->
     z_max_buffer (configure ps m mtu pm) < z_decrypt_headroom (configure ps m mtu pm) + MAX_HANDSHAKE_SIZE).
Proof. intros ps m mtu pm g d Hg. exact (proj1 (receive_fatal_iff ps m mtu pm g d Hg)). Qed.
Print Assumptions C43_receive_fatal_exactly.

(** A TAP interface with MTU 1000 (576 to 65535 are accepted by the
    configuration parser) and a salsa2012+gmac-like method: the first datagram
    received, of any length, stops the daemon. *)
Theorem C43_small_mtu_refuted :
  exists ps m mtu,
    (576 <= Z.of_nat mtu <= 65535)%Z /\
    forall g d, length g = z_max_buffer (configure ps m mtu []) ->
      receive m (configure ps m mtu []) g d = Fatal.
Proof.
  exists [PKeyed GenericMac], MTap, 1000. split; [lia|]. intros g d Hg.
  apply (receive_fatal_iff [PKeyed GenericMac] MTap 1000 [] g d Hg).
  apply Nat.ltb_lt. vm_compute. reflexivity.
Qed.
Print Assumptions C43_small_mtu_refuted.

(** What holds: if the MTU is at least 1232 minus the overhead the received
    datagram is stored, and cut to the maximal length only. *)
Theorem C43_receive :
  forall ps m mtu pm g d,
    length g = z_max_buffer (configure ps m mtu pm) ->
    MAX_HANDSHAKE_SIZE <= max_payload m (z_max_mtu (configure ps m mtu pm)) + z_overhead (configure ps m mtu pm) ->
    exists b, receive m (configure ps m mtu pm) g d = Ok b /\
      b_data b = firstn (max_payload m (z_max_mtu (configure ps m mtu pm)) + z_overhead (configure ps m mtu pm)) d.
Proof. exact receive_large_mtu. Qed.
Print Assumptions C43_receive.

(** The whole receive path of a data packet (first byte not the control packet
    type) with any of the configured keyed methods never stops or corrupts the
    daemon, in the configurations where receiving is possible at all. *)
Theorem C43_receive_data :
  forall ps m mtu pm now cy sl sh s g1 g2 d,
    In (PKeyed sh) ps -> computes cy sl ->
    z_decrypt_headroom (configure ps m mtu pm) + MAX_HANDSHAKE_SIZE <= z_max_buffer (configure ps m mtu pm) ->
    length g1 = z_max_buffer (configure ps m mtu pm) ->
    length g2 = z_max_buffer (configure ps m mtu pm) ->
    d <> [] -> nth 0 d 0%N <> 200%N ->
    exists r, receive_data now m (configure ps m mtu pm) cy sh s g1 g2 d = Ok (Some r).
Proof. exact receive_data_safe. Qed.
Print Assumptions C43_receive_data.

(** Sending what was read from the interface always works, for every
    configuration. *)
Theorem C43_interface_to_peer :
  forall ps m mtu pm sl cy sh s imtu g1 g2 d,
    In (PKeyed sh) ps -> computes cy sl -> length (s_send s) = 6 ->
    length g1 = z_max_buffer (configure ps m mtu pm) ->
    length g2 = z_max_buffer (configure ps m mtu pm) ->
    imtu <= z_max_mtu (configure ps m mtu pm) ->
    exists b r,
      iface_read m (configure ps m mtu pm) imtu g1 d = Ok b /\
      session_encrypt (size_cfg (configure ps m mtu pm)) cy sh s b g2 = Ok r.
Proof. exact iface_send_safe. Qed.
Print Assumptions C43_interface_to_peer.

Theorem C43_multiaf_interface_to_peer :
  forall ps m mtu pm sl cy sh s imtu g1 g2 d,
    In (PKeyed sh) ps -> computes cy sl -> length (s_send s) = 6 ->
    length g1 = z_max_buffer (configure ps m mtu pm) ->
    length g2 = z_max_buffer (configure ps m mtu pm) ->
    imtu <= z_max_mtu (configure ps m mtu pm) -> 4 <= imtu -> 4 <= length d ->
    exists b r,
      iface_read_multiaf m (configure ps m mtu pm) imtu g1 d = Ok b /\
      session_encrypt (size_cfg (configure ps m mtu pm)) cy sh s b g2 = Ok r.
Proof. exact iface_multiaf_send_safe. Qed.
Print Assumptions C43_multiaf_interface_to_peer.

(** Keepalives, by the maintenance task and by the protocol. *)
Theorem C43_keepalive :
  forall ps m mtu pm sl cy sh s g1 g2,
    In (PKeyed sh) ps -> computes cy sl -> length (s_send s) = 6 ->
    length g1 = z_max_buffer (configure ps m mtu pm) ->
    length g2 = z_max_buffer (configure ps m mtu pm) ->
    (exists b r, keepalive_buf (configure ps m mtu pm) g1 = Ok b /\
       session_encrypt (size_cfg (configure ps m mtu pm)) cy sh s b g2 = Ok r) /\
    (exists b r, empty_buf (configure ps m mtu pm) sh g1 = Ok b /\
       session_encrypt (size_cfg (configure ps m mtu pm)) cy sh s b g2 = Ok r).
Proof. exact keepalive_safe. Qed.
Print Assumptions C43_keepalive.

(** Forwarding: every frame of at most the maximal payload length, wherever it
    lies in its buffer, can be aligned, duplicated and encrypted for every
    configured method. *)
Theorem C43_forward :
  forall ps m mtu pm sl cy sh s dup b g1 g2 g3,
    In (PKeyed sh) ps -> computes cy sl -> length (s_send s) = 6 ->
    length g1 = z_max_buffer (configure ps m mtu pm) ->
    length g2 = z_max_buffer (configure ps m mtu pm) ->
    length g3 = z_max_buffer (configure ps m mtu pm) ->
    buf_wf (z_max_buffer (configure ps m mtu pm)) b ->
    b_len b <= max_payload m (z_max_mtu (configure ps m mtu pm)) ->
    exists r, forward (configure ps m mtu pm) cy sh s dup b g1 g2 g3 = Ok r.
Proof. exact forward_safe. Qed.
Print Assumptions C43_forward.

(** A frame received with a method whose overhead is the largest configured one
    has at most that length ... *)
Theorem C43_received_payload_fits :
  forall ps m mtu pm now sl cy sh s b g2 out s' re,
    In (PKeyed sh) ps -> computes cy sl ->
    z_decrypt_headroom (configure ps m mtu pm) + MAX_HANDSHAKE_SIZE <= z_max_buffer (configure ps m mtu pm) ->
    length g2 = z_max_buffer (configure ps m mtu pm) ->
    buf_wf (z_max_buffer (configure ps m mtu pm)) b ->
    b_off b = z_decrypt_headroom (configure ps m mtu pm) ->
    b_len b <= recv_max_len m (configure ps m mtu pm) ->
    p_overhead (PKeyed sh) = z_overhead (configure ps m mtu pm) ->
    MAX_HANDSHAKE_SIZE <= max_payload m (z_max_mtu (configure ps m mtu pm)) + z_overhead (configure ps m mtu pm) ->
    session_decrypt now (size_cfg (configure ps m mtu pm)) cy sh s b g2 = Ok (DecOut out s' re) ->
    b_len out <= max_payload m (z_max_mtu (configure ps m mtu pm)) /\
    buf_wf (z_max_buffer (configure ps m mtu pm)) out.
Proof. exact payload_fits. Qed.
Print Assumptions C43_received_payload_fits.

(** ... but not for a method with less overhead: with "null" and a keyed method
    configured and forwarding on, an oversized frame received from a "null"
    peer stops the daemon when it is forwarded. *)
Theorem C43_mixed_forward_refuted :
  exists ps mtu d b r,
    let z := configure ps MTap mtu [] in
    z_decrypt_headroom z + MAX_HANDSHAKE_SIZE <= z_max_buffer z /\
    receive MTap z (repeat 0%N (z_max_buffer z)) d = Ok b /\
    null_decrypt b = Ok r /\
    forall cy sh s dup g1 g2 g3, forward z cy sh s dup r g1 g2 g3 = Fatal.
Proof.
  exists [PNull; PKeyed GenericMac], 1500, (0%N :: repeat 7%N 1537).
  exists {| b_mem := repeat 0%N 8 ++ (0%N :: repeat 7%N 1537) ++ repeat 0%N 6; b_off := 8; b_len := 1538 |}.
  exists {| b_mem := repeat 0%N 8 ++ (0%N :: repeat 7%N 1537) ++ repeat 0%N 6; b_off := 9; b_len := 1537 |}.
  cbv zeta. split; [apply Nat.leb_le; vm_compute; reflexivity|].
  split; [vm_compute; reflexivity|]. split; [vm_compute; reflexivity|].
  intros cy sh s dup g1 g2 g3. reflexivity.
Qed.
Print Assumptions C43_mixed_forward_refuted.

(** The hypotheses of the positive theorems hold for the usual configuration
    (MTU 1426, a poly1305 and a generic MAC method). *)
Definition ex_z : sizes := configure [PKeyed Poly1305; PKeyed GenericMac] MTap 1426 [].
Example C43_nonvacuous :
  (ex_z = mk_sizes 24 32 24 1426 1488) /\
  z_decrypt_headroom ex_z + MAX_HANDSHAKE_SIZE <= z_max_buffer ex_z /\
  MAX_HANDSHAKE_SIZE <= max_payload MTap (z_max_mtu ex_z) + z_overhead ex_z /\
  p_overhead (PKeyed Poly1305) = z_overhead ex_z /\ p_overhead (PKeyed GenericMac) = z_overhead ex_z.
Proof. vm_compute. repeat split; repeat constructor. Qed.

(** ** C44  The buffer pool stays valid across reloads *)

(** The pool is allocated once, with the size computed from the peers known
    when the daemon starts ([start]); peers from peer directories ([later]) are
    read afterwards and at every reload, and recompute the size. *)

(** What holds: as long as no later peer raises the maximal MTU the real size
    of the buffers is the size the code assumes; always so in TAP mode. *)
Theorem C44_pool :
  forall ps m mtu start later,
    m = MTap \/ max_mtu m mtu later <= max_mtu m mtu start ->
    z_max_buffer (configure ps m mtu later) <= z_max_buffer (configure ps m mtu start).
Proof. exact pool_large_enough. Qed.
Print Assumptions C44_pool.

(** In TUN mode a peer directory entry with a larger MTU makes the code receive
    a datagram into memory behind the end of the preallocated buffer. *)
Theorem C44_reload_refuted :
  exists ps mtu later g d,
    length g = z_max_buffer (configure ps MTun mtu []) /\
    receive MTun (configure ps MTun mtu later) g d = UB.
Proof.
  exists [PKeyed GenericMac], 1300, [1400], (repeat 0%N 1344), (repeat 0%N 1424).
  split; vm_compute; reflexivity.
Qed.
Print Assumptions C44_reload_refuted.

Example C44_nonvacuous :
  max_mtu MTun 1400 [1300; 0] <= max_mtu MTun 1400 [] /\
  z_max_buffer (configure [PKeyed GenericMac] MTun 1400 [1300; 0]) = 1440.
Proof. vm_compute. split; [repeat constructor|reflexivity]. Qed.

(** ** C45  Block accesses are aligned on whole paths *)

(** Full statement: also with a control header in front of the packet,
      forall ps m mtu pm now cy sl sh s g1 g2 d, ... -> d <> [] ->
        exists r, receive_data now m (configure ps m mtu pm) cy sh s g1 g2 d = Ok r.
    False: the header is 12 bytes long, so the tag of the data packet after it
    is not 16-byte aligned. *)
Theorem C45_control_header_refuted :
  exists ps mtu cy sl s g1 g2 d,
    let z := configure ps MTap mtu [] in
    computes cy sl /\
    z_decrypt_headroom z + MAX_HANDSHAKE_SIZE <= z_max_buffer z /\
    length g1 = z_max_buffer z /\ length g2 = z_max_buffer z /\
    receive_data 5 MTap z cy GenericMac s g1 g2 d = UB.
Proof.
  exists [PKeyed GenericMac], 1426.
  exists {| cy_ivlen := 8; cy_crypt := fun _ x => Some x; cy_mac_ivlen := 8; cy_mac_crypt := fun _ x => Some x;
            cy_digest := fun _ _ => Some (repeat 0%N 16); cy_poly1305 := fun _ _ => repeat 0%N 16 |}.
  exists {| sl_ks := fun _ _ => 0%N; sl_mac_ks := fun _ _ => 0%N; sl_digest := fun _ _ => Some (repeat 0%N 16);
            sl_poly := fun _ _ => repeat 0%N 16 |}.
  exists (NonceModel.common_init 0 false false 0), (repeat 0%N 1472), (repeat 0%N 1472).
  exists ([200; 3] ++ repeat 0 10 ++ [0; 0; 0; 0; 0; 0; 0; 3] ++ repeat 0 16 ++ [1; 2; 3])%N.
  cbv zeta. split; [|split; [apply Nat.leb_le; vm_compute; reflexivity|vm_compute; repeat split; reflexivity]].
  assert (Z : forall (x : bytes) f, x = xor_ks (fun _ => 0%N) f x).
  { intro x. induction x as [|b x IH]; intro f; cbn [xor_ks]; [reflexivity|].
    rewrite N.lxor_0_r. f_equal. apply IH. }
  unfold computes. cbn [cy_crypt cy_mac_crypt cy_digest cy_poly1305 sl_ks sl_mac_ks sl_digest sl_poly].
  refine (conj _ (conj _ (conj _ (conj _ (conj _ _))))).
  - intros iv x y H. injection H as <-. apply Z.
  - intros iv x y H. injection H as <-. apply Z.
  - intros mm n t H. exact H.
  - intros mm n t H. injection H as <-. reflexivity.
  - reflexivity.
  - reflexivity.
Qed.
Print Assumptions C45_control_header_refuted.

(** Without a control header every block access of the receive path is aligned
    and inside the buffer: C43_receive_data; the send paths:
    C43_interface_to_peer, C43_multiaf_interface_to_peer, C43_keepalive,
    C43_forward (their results exclude [UB]). *)
Theorem C45_receive_path :
  forall ps m mtu pm sh b g2,
    In (PKeyed sh) ps ->
    z_decrypt_headroom (configure ps m mtu pm) + MAX_HANDSHAKE_SIZE <= z_max_buffer (configure ps m mtu pm) ->
    length g2 = z_max_buffer (configure ps m mtu pm) ->
    buf_wf (z_max_buffer (configure ps m mtu pm)) b ->
    b_off b = z_decrypt_headroom (configure ps m mtu pm) ->
    b_len b <= recv_max_len m (configure ps m mtu pm) ->
    dec_ready (size_cfg (configure ps m mtu pm)) sh b g2.
Proof. exact recv_dec_ready. Qed.
Print Assumptions C45_receive_path.

Example C45_nonvacuous :
  In (PKeyed GenericMac) [PKeyed Poly1305; PKeyed GenericMac] /\
  b_off {| b_mem := repeat 0%N 1488; b_off := 24; b_len := 100 |} = z_decrypt_headroom ex_z /\
  100 <= recv_max_len MTap ex_z.
Proof. vm_compute. repeat split; [right; left; reflexivity|repeat constructor]. Qed.
