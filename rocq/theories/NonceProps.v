(** Property theorems C01-C07: nonces, replay protection, session lifetime. *)
From Verif Require Import Base NonceModel NonceSpec NonceProofs NonceProofs2.
Local Open Scope Z_scope.

(** ** C01  A session never sends two packets with the same nonce *)

Theorem C01_nonces_never_repeat :
  forall (now : Z) (initiator compat : bool) (rnd : Z) (ops : list sess_op),
    NoDup (snd (sess_run (common_init now initiator compat rnd) ops)).
Proof. exact sent_nodup. Qed.
Print Assumptions C01_nonces_never_repeat.

(** The i-th packet carries the number start + 2 i; the counter stays below the
    point where it could overflow. *)
Theorem C01_nonce_counter_never_wraps :
  forall now initiator compat rnd ops i n,
    nth_error (snd (sess_run (common_init now initiator compat rnd) ops)) i = Some n ->
    length n = 6%nat /\
    Z.of_N (be_val n) = (if initiator then 3 else 2) + 2 * Z.of_nat i /\
    Z.of_N (be_val n) < 2 ^ 48 - 2 ^ 32 + 2.
Proof. exact sent_counter. Qed.
Print Assumptions C01_nonce_counter_never_wraps.

Example C01_nonvacuous :
  snd (sess_run (common_init 0 true false 0) [SSend 1; SSend 2; SRecv 3 [0;0;0;0;0;2]%N; SSend 4000000; SSend 5])
  = [[0;0;0;0;0;3]; [0;0;0;0;0;5]; [0;0;0;0;0;7]]%N.
Proof. vm_compute. reflexivity. Qed.

(** ** C02  The two ends of a session never use the same nonce *)

Theorem C02_directions_disjoint :
  forall now1 c1 r1 ops1 now2 c2 r2 ops2 n,
    In n (snd (sess_run (common_init now1 true c1 r1) ops1)) ->
    In n (snd (sess_run (common_init now2 false c2 r2) ops2)) -> False.
Proof. exact directions_disjoint. Qed.
Print Assumptions C02_directions_disjoint.

Example C02_nonvacuous :
  In [0;0;0;0;1;1]%N (snd (sess_run (common_init 0 true false 0) (repeat (SSend 1) 200))) /\
  In [0;0;0;0;1;0]%N (snd (sess_run (common_init 0 false false 0) (repeat (SSend 1) 200))).
Proof.
  split.
  - apply nth_error_In with 127%nat. vm_compute. reflexivity.
  - apply nth_error_In with 127%nat. vm_compute. reflexivity.
Qed.

(** ** C03  Distinct packets never share a cipher IV or a CTR block *)

Theorem C03_iv_injective :
  forall i1 i2 n m (ivlen : nat),
    sent_by i1 n -> sent_by i2 m -> (7 <= ivlen)%nat ->
    expand_nonce n ivlen = expand_nonce m ivlen -> n = m.
Proof.
  intros i1 i2 n m ivlen Hn Hm.
  exact (expand_inj n m ivlen (proj2 (sent_wf _ _ Hn)) (proj2 (sent_wf _ _ Hm))).
Qed.
Print Assumptions C03_iv_injective.

Theorem C03_iv_not_key_derivation_iv :
  forall i n (ivlen : nat),
    sent_by i n -> (7 <= ivlen)%nat ->
    length (expand_nonce n ivlen) = ivlen /\ expand_nonce n ivlen <> repeat 0%N ivlen.
Proof.
  intros i n ivlen Hn Hl.
  exact (conj (expand_length n ivlen (proj2 (sent_wf _ _ Hn)))
              (expand_not_zero n ivlen (proj2 (sent_wf _ _ Hn)) Hl)).
Qed.
Print Assumptions C03_iv_not_key_derivation_iv.

Theorem C03_ctr_blocks_disjoint :
  forall i1 i2 n m (i j : N),
    sent_by i1 n -> sent_by i2 m -> (i < 2 ^ 79)%N -> (j < 2 ^ 79)%N ->
    ctr_block (expand_nonce n 16) i = ctr_block (expand_nonce m 16) j -> n = m /\ i = j.
Proof.
  intros i1 i2 n m i j Hn Hm. exact (ctr_disjoint n m i j (sent_wf _ _ Hn) (sent_wf _ _ Hm)).
Qed.
Print Assumptions C03_ctr_blocks_disjoint.

Theorem C03_ctr_key_derivation_disjoint :
  forall i1 n (i j : N),
    sent_by i1 n -> (i < 2 ^ 79)%N -> (j < 2 ^ 79)%N ->
    ctr_block (expand_nonce n 16) i <> ctr_block (repeat 0%N 16) j.
Proof.
  intros i1 n i j Hn. exact (ctr_zero_disjoint n i j (sent_wf _ _ Hn) (sent_ge2 _ _ Hn)).
Qed.
Print Assumptions C03_ctr_key_derivation_disjoint.

Example C03_nonvacuous : sent_by true [0;0;0;0;0;3]%N /\ sent_by false [0;0;0;0;0;2]%N.
Proof. exact (conj (demo_sent true 0 ltac:(lia)) (demo_sent false 0 ltac:(lia))). Qed.

(** ** C04  Replayed packets are delivered at most once *)

(** Full statement: for every list of arrivals whose nonces were used by *either*
    end of the session (the network can also return a node's own packets), no
    nonce is accepted twice.  This is false: a reflected packet moves the window by
    a number of the other parity, after which an old packet of the peer is taken
    for an unseen one. *)
Theorem C04_at_most_once_refuted :
  exists (l : list (Z * bytes)) (n other : bytes),
    Forall (fun '(t, m) => 0 <= t /\ (sent_by true m \/ sent_by false m)) l /\
    sent_by true n /\
    accepted_nonces l (recv_run (common_init 0 false false 0) l) = [n; other; n].
Proof.
  exact (let '(ex_intro _ l (ex_intro _ n H)) := replay_after_reflection in
         ex_intro _ l (ex_intro _ n (ex_intro _ (demo_nonce 8) H))).
Qed.
Print Assumptions C04_at_most_once_refuted.

(** What holds: as long as only packets of the peer arrive (duplicated, delayed
    and reordered arbitrarily, at arbitrary times), each is accepted at most once. *)
Theorem C04_at_most_once :
  forall now initiator compat rnd (l : list (Z * bytes)),
    Forall (fun '(t, n) => 0 <= t /\ sent_by (negb initiator) n) l ->
    NoDup (accepted_nonces l (recv_run (common_init now initiator compat rnd) l)).
Proof. exact accepted_nodup. Qed.
Print Assumptions C04_at_most_once.

(** And whatever arrives, no packet is accepted more than 129 times. *)
Theorem C04_bounded :
  forall now initiator compat rnd (l : list (Z * bytes)) (n : bytes),
    Forall (fun '(t, m) => nonce_wf m) l ->
    (count_occ (list_eq_dec N.eq_dec) (accepted_nonces l (recv_run (common_init now initiator compat rnd) l)) n <= 129)%nat.
Proof. exact accepted_129. Qed.
Print Assumptions C04_bounded.

Example C04_nonvacuous :
  let l := [(1, demo_nonce 7); (2, demo_nonce 3); (3, demo_nonce 7); (4, demo_nonce 3); (5, demo_nonce 9)] in
  Forall (fun '(t, n) => 0 <= t /\ sent_by (negb false) n) l /\
  accepted_nonces l (recv_run (common_init 0 false false 0) l) = [demo_nonce 7; demo_nonce 3; demo_nonce 9].
Proof.
  split; [|vm_compute; reflexivity].
  repeat (constructor; [split; [lia|]; first
    [exact (demo_sent true 0 ltac:(lia)) | exact (demo_sent true 2 ltac:(lia)) | exact (demo_sent true 3 ltac:(lia))]|]).
  constructor.
Qed.

(** ** C05  Packets inside the reorder window are not lost *)

Theorem C05_window_exact :
  forall now initiator compat rnd (l : list (Z * bytes)),
    Forall (fun '(t, n) => 0 <= t /\ sent_by (negb initiator) n) l ->
    recv_run (common_init now initiator compat rnd) l =
    spec_run (first_nonce initiator) [] (map (fun '(t, n) => mk_arrival t (Z.of_N (be_val n))) l).
Proof. exact recv_run_spec. Qed.
Print Assumptions C05_window_exact.

(** No shift in the window code is undefined, for any nonce bytes whatsoever. *)
Theorem C05_no_undefined_shift :
  forall now initiator compat rnd (l : list (Z * bytes)),
    Forall (fun '(t, n) => 0 <= t /\ nonce_wf n) l ->
    ~ In VUB (recv_run (common_init now initiator compat rnd) l).
Proof. exact recv_no_ub. Qed.
Print Assumptions C05_no_undefined_shift.

(** The restriction of the quantifier in C05 is needed: when the most significant
    byte of the peer's counter becomes 1 its packets are refused. *)
Theorem C05_top_byte_refuted :
  exists n, sent_by true n /\ forall now rnd t, 0 <= t ->
    recv_run (common_init now false false rnd) [(t, n)] = [VRejected].
Proof. exact msb_flip_rejected. Qed.
Print Assumptions C05_top_byte_refuted.

Example C05_nonvacuous :
  recv_run (common_init 0 false false 0)
    [(1, demo_nonce 131); (2, demo_nonce 1); (3, demo_nonce 3); (4, demo_nonce 3); (10001, demo_nonce 5); (10001, demo_nonce 133)]
  = [VNew; VRejected; VReordered; VRejected; VRejected; VNew].
Proof. vm_compute. reflexivity. Qed.

(** ** C06  A packet reflected to its sender is rejected *)

(** False: the direction bit is compared in the most significant byte, where it
    is always 0, instead of the least significant one. *)
Theorem C06_reflection_refuted :
  exists n, sent_by false n /\ snd (accept_nonce 1 (common_init 0 false false 0) n) = VNew.
Proof. exact reflection_accepted. Qed.
Print Assumptions C06_reflection_refuted.

(** A node's own packet is taken for a new packet of the peer exactly when it is
    newer than all packets accepted before (and the most significant byte has the
    parity it had), in every state of the session. *)
Theorem C06_reflection_exactly :
  forall now initiator compat rnd ops t n,
    let '(s, sent) := sess_run (common_init now initiator compat rnd) ops in
    (forall t' n', In (SRecv t' n') ops -> nonce_wf n') ->
    In n sent ->
    (snd (accept_nonce t s n) = VNew <->
     N.odd (hd 0%N n) = N.odd (hd 0%N (s_recv s)) /\ (be_val (s_recv s) < be_val n)%N).
Proof. exact reflected_exactly. Qed.
Print Assumptions C06_reflection_exactly.

Example C06_nonvacuous :
  let '(s, sent) := sess_run (common_init 0 true false 0) [SSend 1; SRecv 2 (demo_nonce 4); SSend 3; SSend 4] in
  sent = [demo_nonce 3; demo_nonce 5; demo_nonce 7] /\
  map (fun n => snd (accept_nonce 5 s n)) sent = [VRejected; VNew; VNew].
Proof. vm_compute. auto. Qed.

(** ** C07  Session lifetime (session level; see also the protocol level) *)

Theorem C07_session_expires :
  forall t0 initiator compat rnd ops t,
    common_is_valid t (fst (sess_run (common_init t0 initiator compat rnd) ops)) = true ->
    t < t0 + 3600000.
Proof. exact lifetime. Qed.
Print Assumptions C07_session_expires.

Theorem C07_superseded_expires :
  forall t0 initiator compat rnd ops1 ts ops2 t,
    common_is_valid t (fst (sess_run (common_init t0 initiator compat rnd) (ops1 ++ SSupersede ts :: ops2))) = true ->
    t < ts + 60000.
Proof. exact lifetime_superseded. Qed.
Print Assumptions C07_superseded_expires.

Example C07_nonvacuous :
  common_is_valid 65000 (fst (sess_run (common_init 0 true false 0) [SSend 1; SSupersede 6000; SSend 7000])) = true /\
  common_is_valid 66000 (fst (sess_run (common_init 0 true false 0) [SSend 1; SSupersede 6000; SSend 7000])) = false.
Proof. split; vm_compute; reflexivity. Qed.
