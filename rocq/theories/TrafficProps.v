(** C73: packets and the statistics about them *)
From Verif Require Import Base BufferModel TrafficModel TrafficSpec TrafficProofs TrafficProofs4 TrafficProofs5.

(** The counters of the node are the numbers and sizes of payload packets sent, dropped, failed, received and received out of
    order, modulo 2^64; those of a peer are the same for its packets since it was last reset *)
Theorem C73_counters : forall E C s evs, execution E C s evs -> correct (n_stats s) (fun st => contributions st evs) /\
  forall q, In q (n_peers s) -> correct (p_stats q) (fun st => of_peer (p_id q) (contributions st (since_reset (p_id q) evs))).
Proof. exact counters. Qed.

(** Nothing is lost: the counters of the node are the sums over the present connections and all past ones *)
Theorem C73_totals : forall E C s evs, execution E C s evs -> forall st,
  packets (n_stats s) st = ((present packets st (n_peers s) + past packets st evs) mod U64)%N /\
  octets (n_stats s) st = ((present octets st (n_peers s) + past octets st evs) mod U64)%N.
Proof. exact totals. Qed.

(** No step fails; in particular no packet is counted for a missing peer *)
Theorem C73_safe : forall E C s evs o, execution E C s evs -> possible s o -> exists s' new, step E C o s = Ok (s', new).
Proof. exact steps. Qed.

(** A packet from an interface has exactly one fate for each of its recipients and concerns nobody else: it is sent, unchanged and
    encrypted with a session of the recipient, with one outcome; or the recipient's session has expired or failed to encrypt it *)
Theorem C73_frame : forall E C s evs dest f s' new, execution E C s evs -> possible s (OIface dest f) -> step E C (OIface dest f) s = Ok (s', new) ->
  map fst (fates new) = recipients C s None dest f /\ Forall (about E s f) new.
Proof. exact frame. Qed.

(** A data packet is given to the interface at most once, and passed on to other peers as configured *)
Theorem C73_packet : forall E C s evs p w s' new q, execution E C s evs -> known s p q -> step E C (OPacket p w) s = Ok (s', new) -> received E C s p q w new.
Proof. exact packet. Qed.

(** False: the counters of the node are the sums over its peers *)
Theorem C73_live_sum_refuted : ~ forall E C s evs, execution E C s evs -> forall st, packets (n_stats s) st = (present packets st (n_peers s) mod U64)%N.
Proof. exact live_sum_false. Qed.
(** False: the packets counted as received are those the interface has taken *)
Theorem C73_delivered_refuted : ~ forall E C s evs, execution E C s evs ->
  packets (n_stats s) STAT_RX = (N.of_nat (length (filter (fun e => match e with Write _ _ _ _ None => true | _ => false end) evs)) mod U64)%N.
Proof. exact delivered_false. Qed.
(** False: a packet is counted for each recipient as sent, dropped or failed *)
Theorem C73_all_counted_refuted : ~ forall E C s evs dest f s' new, execution E C s evs -> possible s (OIface dest f) -> step E C (OIface dest f) s = Ok (s', new) -> f <> [] ->
  (packets (n_stats s') STAT_TX + packets (n_stats s') STAT_TX_DROPPED + packets (n_stats s') STAT_TX_ERROR =
   packets (n_stats s) STAT_TX + packets (n_stats s) STAT_TX_DROPPED + packets (n_stats s) STAT_TX_ERROR + N.of_nat (length (recipients C s None dest f)))%N.
Proof. exact all_counted_false. Qed.

Print Assumptions C73_counters.
Print Assumptions C73_totals.
Print Assumptions C73_safe.
Print Assumptions C73_frame.
Print Assumptions C73_packet.
Print Assumptions C73_live_sum_refuted.
Print Assumptions C73_delivered_refuted.
Print Assumptions C73_all_counted_refuted.

(** Two peers; a broadcast frame that is first refused because of its source address, then sent to peer 1 and dropped for
    peer 2; a frame from peer 1 that is reordered and forwarded to peer 2; an empty packet; a reset *)
Definition ex_send (t : nat) : option errno := nth t [None; None; None; None; None; Some EINVAL; None; None; None; None; Some EAGAIN] None.
Definition broadcast (b : N) : bytes := [b; 255; 255; 255; 255; 255; 2; 0; 0; 0; 0; 9; 8; 0; 1]%N.
Definition ex_ops : list op := two ++ [OIface None (broadcast 255); OPacket 1 (11 :: broadcast 7)%N; OKeepalive 1; OHandshake None true [1%N]; OReset 1 false]%N.
Definition ex_end : node * list event := ok_or_init (run (net ex_send) tap ex_ops init).
Example C73_counters_ex : execution (net ex_send) tap (fst ex_end) ([] ++ snd ex_end) /\
  map (fun st => (packets (n_stats (fst ex_end)) st, octets (n_stats (fst ex_end)) st)) [STAT_RX; STAT_RX_REORDERED; STAT_TX; STAT_TX_DROPPED; STAT_TX_ERROR]
  = [(1, 15); (1, 15); (2, 30); (1, 15); (0, 0)]%N /\
  map (fun q => map (packets (p_stats q)) [STAT_RX; STAT_TX; STAT_TX_DROPPED]) (n_peers (fst ex_end)) = [[0; 0; 0]; [0; 1; 1]]%N.
Proof. split; [apply (run_execution _ _ ex_ops init []); [apply Execution_init | vm_compute; tauto | vm_compute; reflexivity] | split; vm_compute; reflexivity]. Qed.
Example C73_totals_ex : past packets STAT_TX (snd ex_end) = 1%N /\ present packets STAT_TX (n_peers (fst ex_end)) = 1%N.
Proof. split; vm_compute; reflexivity. Qed.
Definition ex_two : node := fst (ok_or_init (run (net ex_send) tap two init)).
Example C73_safe_ex : possible ex_two (ODelete 1) /\ possible ex_two (OHandshake None false []).
Proof. vm_compute. auto. Qed.
Example C73_frame_ex : exists s' new, step (net ex_send) tap (OIface None (broadcast 255)) ex_two = Ok (s', new) /\
  fates new = [(1%N, Transmitted); (2%N, Dropped)] /\ length new = 3 /\ recipients tap ex_two None None (broadcast 255) = [1; 2]%N.
Proof. eexists. eexists. split; [vm_compute; reflexivity|]. vm_compute. auto. Qed.
Example C73_packet_ex : exists s' new, step (net ex_send) tap (OPacket 1 (11 :: broadcast 7)%N) ex_two = Ok (s', new) /\
  map (fun e => match e with Write p i f ro _ => Some (p, i, ro) | _ => None end) new = [None; Some (1%N, 5%N, true); None] /\ map fst (fates new) = [1; 2]%N.
Proof. eexists. eexists. split; [vm_compute; reflexivity|]. vm_compute. auto. Qed.
