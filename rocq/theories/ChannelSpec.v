(** What a session is for: a channel that carries numbered packets.  Packet [k]
    is the k-th packet (from 0) the other end has sent; nothing here knows of
    nonces, tags, ciphers or bitmaps. *)
From Verif Require Import Base NonceModel BufferModel MethodModel MethodSpec ChannelModel.
Local Open Scope Z_scope.

(** What happens at one end: it wants to send; a datagram arrives, which is a
    copy of packet [k] of the other end or is none of its packets; a newer session
    was established. *)
Inductive plan :=
| PSend (t : Z)
| PRecv (t : Z) (k : option nat)
| PSupersede (t : Z).

Inductive outcome :=
| XSkipped | XSent | XDelivered (p : bytes) (reordered : bool) | XDropped | XSuperseded.

(** The end of the session's life, how many packets this end has sent, and the
    packets accepted so far (arrival time, number). *)
Record chan := { c_end : Z; c_sent : Z; c_hist : list (Z * Z) }.

Definition chan_fresh (t : Z) : chan := {| c_end := t + 3600000; c_sent := 0; c_hist := [] |}.

(** Both directions stop when the time is over or this end has used up its
    numbers. *)
Definition chan_open (c : chan) (t : Z) : bool :=
  (t <? c_end c) && (c_sent c <? 2 ^ 47 - 2 ^ 31 - 1).

(** Packets whose number has bit 39 set (counting from 1) are refused. *)
Definition number_ok (k : Z) : bool := negb (Z.odd ((k + 1) / 2 ^ 39)).

Definition newer (h : list (Z * Z)) (k : Z) : bool := forallb (fun a => snd a <? k) h.
Definition seen (h : list (Z * Z)) (k : Z) : bool := existsb (fun a => snd a =? k) h.
(** at most 64 behind the newest, which arrived less than ten seconds ago *)
Definition recent (h : list (Z * Z)) (t k : Z) : bool :=
  existsb (fun a => forallb (fun b => snd b <=? snd a) h && (snd a - k <=? 64) && (t <? fst a + 10000)) h.
Definition acceptable (h : list (Z * Z)) (t k : Z) : bool :=
  number_ok k && (newer h k || (negb (seen h k) && recent h t k)).

(** [ps] are the payloads of the packets of the other end. *)
Definition chan_spec_step (ps : list bytes) (c : chan) (o : plan) : chan * outcome :=
  match o with
  | PSend t =>
      if chan_open c t
      then ({| c_end := c_end c; c_sent := c_sent c + 1; c_hist := c_hist c |}, XSent)
      else (c, XSkipped)
  | PRecv t None => (c, XDropped)
  | PRecv t (Some k) =>
      if chan_open c t && acceptable (c_hist c) t (Z.of_nat k) then
        ({| c_end := c_end c; c_sent := c_sent c; c_hist := (t, Z.of_nat k) :: c_hist c |},
         match nth k ps [] with
         | [] => XDropped
         | p => XDelivered p (negb (newer (c_hist c) (Z.of_nat k)))
         end)
      else (c, XDropped)
  | PSupersede t =>
      ({| c_end := Z.min (c_end c) (t + 60000); c_sent := c_sent c; c_hist := c_hist c |}, XSuperseded)
  end.

Fixpoint chan_spec_run (ps : list bytes) (c : chan) (l : list plan) : list outcome :=
  match l with
  | [] => []
  | o :: l' => let '(c', x) := chan_spec_step ps c o in x :: chan_spec_run ps c' l'
  end.

(** * Relation to the model *)

Definition looks (e : chan_event) (x : outcome) : Prop :=
  match e, x with
  | Skipped, XSkipped => True
  | Sent _, XSent => True
  | Delivered p r, XDelivered p' r' => p = p' /\ r = r'
  | Dropped, XDropped => True
  | Superseded, XSuperseded => True
  | _, _ => False
  end.

(** Payload and packet of everything an end has sent, in order. *)
Fixpoint sent (ops : list chan_op) (evs : list chan_event) : list (bytes * bytes) :=
  match ops, evs with
  | OSend _ b _ :: ops', Sent pkt :: evs' => (b_data b, pkt) :: sent ops' evs'
  | _ :: ops', _ :: evs' => sent ops' evs'
  | _, _ => []
  end.

(** A datagram is a copy of packet [k], or no packet of the session at all: no
    payload with any nonce gives these bytes. *)
Definition carries (sl : sealing) (e : chan_end) (compat : bool) (pkts : list (bytes * bytes))
    (o : chan_op) (p : plan) : Prop :=
  match o, p with
  | OSend t _ _, PSend t' => t = t'
  | OSupersede t, PSupersede t' => t = t'
  | ORecv t b _, PRecv t' (Some k) => t = t' /\ exists q, nth_error pkts k = Some (q, b_data b)
  | ORecv t b _, PRecv t' None =>
      t = t' /\ forall nonce q, length nonce = 6%nat ->
        seal sl (ce_sh e) (cy_ivlen (ce_cy e)) (cy_mac_ivlen (ce_cy e)) compat nonce q <> Some (b_data b)
  | _, _ => False
  end.

(** Buffers as the callers provide them (C43, C45); the clock is not negative. *)
Definition op_ready (e : chan_end) (o : chan_op) : Prop :=
  match o with
  | OSend t b g => enc_ready (ce_cf e) (ce_sh e) b g
  | ORecv t b g => 0 <= t /\ dec_ready (ce_cf e) (ce_sh e) b g
  | OSupersede t => True
  end.

(** The ends use the same keys and the same method. *)
Definition same_keys (sl : sealing) (a b : chan_end) : Prop :=
  computes (ce_cy a) sl /\ total (ce_cy a) sl /\ computes (ce_cy b) sl /\ total (ce_cy b) sl /\
  cy_ivlen (ce_cy b) = cy_ivlen (ce_cy a) /\ cy_mac_ivlen (ce_cy b) = cy_mac_ivlen (ce_cy a) /\
  ce_sh b = ce_sh a.

(** The datagrams arrive in the order in which they were sent, possibly with
    gaps and mixed with foreign ones, while the session lives; fewer than 2^39
    packets are numbered. *)
Fixpoint in_order (till : Z) (from : nat) (l : list plan) : Prop :=
  match l with
  | [] => True
  | PSend _ :: l' => in_order till from l'
  | PRecv _ None :: l' => in_order till from l'
  | PRecv t (Some k) :: l' =>
      t < till /\ (from <= k)%nat /\ Z.of_nat k < 2 ^ 39 - 1 /\ in_order till (S k) l'
  | PSupersede _ :: _ => False
  end.

(** The hypotheses about both ends, as one relation between what happened at
    them. *)
Definition joint (sl : sealing) (eS eR : chan_end) (ini compat : bool) (t0 r0 t1 r1 : Z)
    (opsS opsR : list chan_op) (plans : list plan) (evS evR : list chan_event) : Prop :=
  same_keys sl eS eR /\ Forall (op_ready eS) opsS /\ Forall (op_ready eR) opsR /\
  chan_run eS (common_init t0 ini compat r0) opsS = Ok evS /\
  chan_run eR (common_init t1 (negb ini) compat r1) opsR = Ok evR /\
  Forall2 (carries sl eR compat (sent opsS evS)) opsR plans.
