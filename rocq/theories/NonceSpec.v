(** Specification of the receive side of a session in terms of the history of
    accepted packets (no bitmap, no byte arithmetic).

    Written from doc/source/devel/protocol.rst and the comments in
    src/methods/common.h: packets are numbered by their nonce, the peer uses every
    second number; up to 64 numbers before the newest one may still arrive, for
    10 seconds after the newest one. *)
From Verif Require Import Base NonceModel.
Local Open Scope Z_scope.

(** An accepted packet: arrival time and nonce. *)
Record arrival := mk_arrival { a_time : Z; a_nonce : Z }.

(** The newest accepted packet of a history, if any. *)
Fixpoint newest (h : list arrival) : option arrival :=
  match h with
  | [] => None
  | a :: h' =>
      match newest h' with
      | None => Some a
      | Some b => if a_nonce b <? a_nonce a then Some a else Some b
      end
  end.

Definition accepted_before (h : list arrival) (n : Z) : bool :=
  existsb (fun a => a_nonce a =? n) h.

(** [first] is the number before the first packet the peer may send.  In the
    expected number space the most significant of the six bytes is even. *)
Definition spec_verdict (first : Z) (h : list arrival) (now n : Z) : verdict :=
  if Z.odd (n / 2 ^ 40) then VRejected
  else
  match newest h with
  | None => if first <? n then VNew else VRejected
  | Some m =>
      if a_nonce m <? n then VNew
      else if accepted_before h n then VRejected
      else if n <=? first then VRejected
      else if (a_nonce m - n <=? 2 * 64) && (now <? a_time m + 10000) then VReordered
      else VRejected
  end.

Definition is_accepted (v : verdict) : bool :=
  match v with VNew | VReordered => true | _ => false end.

(** Running the specification over a list of arrivals. *)
Fixpoint spec_run (first : Z) (h : list arrival) (l : list arrival) : list verdict :=
  match l with
  | [] => []
  | a :: l' =>
      let v := spec_verdict first h (a_time a) (a_nonce a) in
      v :: spec_run first (if is_accepted v then a :: h else h) l'
  end.

(** * Executions *)

(** Events concerning one session. *)
Inductive sess_op :=
| SSend (now : Z)                    (* the protocol wants to send a packet *)
| SRecv (now : Z) (nonce : bytes)    (* an authentic packet with this nonce arrives *)
| SSupersede (now : Z).

Definition sess_step (s : session) (o : sess_op) : session * list bytes :=
  match o with
  | SSend now => match guarded_send now s with
                 | Some (n, s') => (s', [n])
                 | None => (s, [])
                 end
  | SRecv now n => (fst (accept_nonce now s n), [])
  | SSupersede now => (common_superseded now s, [])
  end.

(** All nonces sent over a list of events, in order, and the final state. *)
Fixpoint sess_run (s : session) (l : list sess_op) : session * list bytes :=
  match l with
  | [] => (s, [])
  | o :: l' => let '(s1, out1) := sess_step s o in
               let '(s2, out2) := sess_run s1 l' in
               (s2, out1 ++ out2)
  end.

(** The receiver processes a list of authentic packets (arrival time, nonce). *)
Fixpoint recv_run (s : session) (l : list (Z * bytes)) : list verdict :=
  match l with
  | [] => []
  | (t, n) :: l' => let '(s', v) := accept_nonce t s n in v :: recv_run s' l'
  end.

(** The nonces of the accepted packets. *)
Fixpoint accepted_nonces (l : list (Z * bytes)) (vs : list verdict) : list bytes :=
  match l, vs with
  | (_, n) :: l', v :: vs' => if is_accepted v then n :: accepted_nonces l' vs' else accepted_nonces l' vs'
  | _, _ => []
  end.

(** A nonce is used by the given end of a session at some point of some history. *)
Definition sent_by (initiator : bool) (n : bytes) : Prop :=
  exists now compat rnd ops, In n (snd (sess_run (common_init now initiator compat rnd) ops)).

Definition first_nonce (receiver_is_initiator : bool) : Z := if receiver_is_initiator then 0 else 1.

(** CTR mode with a 128-bit big-endian counter (OpenSSL EVP_aes_128_ctr): the
    i-th counter block for an IV. *)
Definition ctr_block (iv : bytes) (i : N) : bytes := be_bytes 16 (be_val iv + i).

