(** The datagram behind the effect [OInit] of the node model; those of [OResp] and [OFin]
    are part of the effects.
    No proofs here. *)
From Verif Require Import Base BufferModel MethodModel HandshakeModel NodeModel.

(** Initial handshake: [fastd_protocol_ec25519_fhmqvc_handshake_init],
    src/protocols/ec25519_fhmqvc/handshake.c L468-497, with the ephemeral key [serial]
    and the key of the peer if it is known.  The copy without a header, which is sent as
    well, is ignored by every node that understands the flag (C23). *)
Definition wire_init (P : params) (recipient : option bytes) (serial : N) : res bytes :=
  with_header (build_init (c_hs P) (c_own P) recipient (c_eph P serial)).
