(** One end of a session while packets are sent and received in any order:
    [session_send] and [protocol_handle_recv] of
    src/protocols/ec25519_fhmqvc/ec25519_fhmqvc.c L109-180, for one session.

    The checks of the peer, the choice between the old and the current session
    and the consequences for the peer are in NodeModel.v; the encryption itself
    in MethodModel.v; the session state in NonceModel.v. *)
From Verif Require Import Base NonceModel BufferModel MethodModel.
Local Open Scope Z_scope.

(** What is fixed for one end of a session: buffer sizes, the implementations of
    the cipher and the MAC with their keys, and the kind of method. *)
Record chan_end := { ce_cf : mcfg; ce_cy : crypto; ce_sh : shape }.

Inductive chan_op :=
| OSend (now : Z) (b : buf) (garbage : bytes)   (* a packet of the upper layer, or an empty one *)
| ORecv (now : Z) (b : buf) (garbage : bytes)   (* a datagram *)
| OSupersede (now : Z).                         (* a newer session was established *)

Inductive chan_event :=
| Skipped                      (* the session is not valid any more, or the encryption failed *)
| Sent (pkt : bytes)
| Delivered (p : bytes) (reordered : bool)   (* handed to fastd_handle_receive *)
| Dropped                      (* not decrypted, or a packet without payload *)
| Superseded.

(** L113 and L183 [check_session], L98-106 [use_old_session]: a session is used
    only while it is valid.  L164-173 [session_send].  L136-141: a packet is
    handed on only if it has a payload. *)
Definition chan_step (e : chan_end) (s : session) (o : chan_op) : res (session * chan_event) :=
  match o with
  | OSend now b g =>
      if common_is_valid now s then
        do r <- session_encrypt (ce_cf e) (ce_cy e) (ce_sh e) s b g;
        match r with
        | Some (out, s') => Ok (s', Sent (b_data out))
        | None => Ok (s, Skipped)
        end
      else Ok (s, Skipped)
  | ORecv now b g =>
      do r <- session_decrypt now (ce_cf e) (ce_cy e) (ce_sh e) s b g;
      match r with
      | DecNull _ => Ok (s, Dropped)
      | DecOut out s' re =>
          if Nat.eqb (b_len out) 0 then Ok (s', Dropped) else Ok (s', Delivered (b_data out) re)
      end
  | OSupersede now => Ok (common_superseded now s, Superseded)
  end.

Fixpoint chan_run (e : chan_end) (s : session) (l : list chan_op) : res (list chan_event) :=
  match l with
  | [] => Ok []
  | o :: l' =>
      do r <- chan_step e s o;
      let '(s', ev) := r in
      do evs <- chan_run e s' l';
      Ok (ev :: evs)
  end.
