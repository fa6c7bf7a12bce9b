(** Property theorems C80: a session is a channel. *)
From Verif Require Import Base NonceModel NonceSpec BufferModel MethodModel MethodSpec MethodProps
  ChannelModel ChannelSpec ChannelProofs ChannelProofs2.
Local Open Scope Z_scope.

(** ** C80  A session carries the packets of the other end *)

(** Both ends of a session with the same keys do anything in any order: send,
    receive copies of the other end's packets (any of them, in any order, any
    number of times) or foreign datagrams, learn of a newer session.  Nothing goes
    wrong at either end, and what the receiving end does is exactly what
    [chan_spec_run] says about numbered packets.  (The same holds for the other
    direction, by exchanging the ends.) *)
Theorem C80_exact :
  forall sl eS eR ini compat t0 r0 opsS t1 r1 opsR plans,
    same_keys sl eS eR -> Forall (op_ready eS) opsS -> Forall (op_ready eR) opsR ->
    exists evS evR,
      chan_run eS (common_init t0 ini compat r0) opsS = Ok evS /\
      chan_run eR (common_init t1 (negb ini) compat r1) opsR = Ok evR /\
      (Forall2 (carries sl eR compat (sent opsS evS)) opsR plans ->
       Forall2 looks evR (chan_spec_run (map fst (sent opsS evS)) (chan_fresh t1) plans)).
Proof. exact channel_exact. Qed.
Print Assumptions C80_exact.

(** Whatever is handed to the upper layer is the payload of a packet the other
    end has sent, and the datagram was that packet. *)
Theorem C80_only_sent :
  forall sl eS eR ini compat t0 r0 t1 r1 opsS opsR plans evS evR,
    joint sl eS eR ini compat t0 r0 t1 r1 opsS opsR plans evS evR ->
    forall i p r, nth_error evR i = Some (Delivered p r) ->
      exists t b g k, nth_error opsR i = Some (ORecv t b g) /\ nth_error plans i = Some (PRecv t (Some k)) /\
        nth_error (sent opsS evS) k = Some (p, b_data b).
Proof. exact channel_only_sent. Qed.
Print Assumptions C80_only_sent.

(** No packet is handed on twice. *)
Theorem C80_once :
  forall sl eS eR ini compat t0 r0 t1 r1 opsS opsR plans evS evR,
    joint sl eS eR ini compat t0 r0 t1 r1 opsS opsR plans evS evR ->
    forall k i j t t' p p' r r',
      nth_error plans i = Some (PRecv t (Some k)) -> nth_error plans j = Some (PRecv t' (Some k)) ->
      nth_error evR i = Some (Delivered p r) -> nth_error evR j = Some (Delivered p' r') -> i = j.
Proof. exact channel_once. Qed.
Print Assumptions C80_once.

(** On a network that keeps the order, every packet that arrives is handed on,
    whatever was lost before it and whatever foreign datagrams arrive. *)
Theorem C80_in_order :
  forall sl eS eR ini compat t0 r0 t1 r1 opsS opsR plans evS evR,
    joint sl eS eR ini compat t0 r0 t1 r1 opsS opsR plans evS evR ->
    in_order (t1 + 3600000) 0 plans -> Z.of_nat (length plans) < 2 ^ 47 - 2 ^ 31 - 1 ->
    forall i t k p pkt, nth_error plans i = Some (PRecv t (Some k)) ->
      nth_error (sent opsS evS) k = Some (p, pkt) -> p <> [] ->
      nth_error evR i = Some (Delivered p false).
Proof. exact channel_in_order. Qed.
Print Assumptions C80_in_order.

(** ** Examples *)

Definition x_end : chan_end := {| ce_cf := ex_cf; ce_cy := ex_cy; ce_sh := GenericMac |}.
Definition x_in (a : N) : buf :=
  {| b_mem := repeat 170%N 32 ++ [a;2;3;4;5]%N ++ repeat 187%N 59; b_off := 32; b_len := 5 |}.
Definition x_g : bytes := repeat 238%N 96.
Definition x_opsS : list chan_op :=
  [OSend 1 (x_in 10) x_g; OSend 2 (x_in 11) x_g; OSend 3 (x_in 12) x_g; OSend 3600000 (x_in 13) x_g].
Definition x_pkts : list bytes :=
  match chan_run x_end (common_init 0 true false 0) x_opsS with
  | Ok evs => map snd (sent x_opsS evs)
  | _ => []
  end.
Definition x_pkt (k : nat) : buf := ex_recv (nth k x_pkts []).
(** 29 bytes whose flags are not zero *)
Definition x_foreign : buf := ex_recv (repeat 1%N 29).
(** packet 2 arrives first, then packet 0, again packet 0, something foreign, the
    end sends a packet itself, packet 1 arrives too late *)
Definition x_opsR : list chan_op :=
  [ORecv 10 (x_pkt 2) x_g; ORecv 20 (x_pkt 0) x_g; ORecv 20 (x_pkt 0) x_g; ORecv 30 x_foreign x_g;
   OSend 40 (x_in 77) x_g; ORecv 10010 (x_pkt 1) x_g; OSupersede 10020; OSend 70020 (x_in 78) x_g].
Definition x_plan : list plan :=
  [PRecv 10 (Some 2%nat); PRecv 20 (Some 0%nat); PRecv 20 (Some 0%nat); PRecv 30 None;
   PSend 40; PRecv 10010 (Some 1%nat); PSupersede 10020; PSend 70020].

Example C80_nonvacuous_run :
  length x_pkts = 3%nat /\
  match chan_run x_end (common_init 0 false false 0) x_opsR with
  | Ok [Delivered [12;2;3;4;5]%N false; Delivered [10;2;3;4;5]%N true; Dropped; Dropped;
        Sent _; Dropped; Superseded; Skipped] => True
  | _ => False
  end.
Proof. vm_compute. auto. Qed.

Lemma x_ready : Forall (op_ready x_end) x_opsS /\ Forall (op_ready x_end) x_opsR.
Proof.
  assert (E : forall a, enc_ready ex_cf GenericMac (x_in a) x_g).
  { intros a. unfold enc_ready, buf_wf. cbn. repeat split; lia. }
  assert (D : forall d, length d = 29%nat -> dec_ready ex_cf GenericMac (ex_recv d) x_g).
  { intros d H. unfold dec_ready, buf_wf, ex_recv. cbn [b_mem b_off b_len m_max_buffer m_encrypt_headroom ex_cf].
    rewrite !app_length, !repeat_length, H. cbn. repeat split; lia. }
  assert (L : forall k, (k < 3)%nat -> length (nth k x_pkts []) = 29%nat).
  { intros k Hk. do 3 (destruct k as [|k]; [vm_compute; reflexivity|]). lia. }
  split; unfold x_opsS, x_opsR; repeat constructor; cbn [op_ready x_end ce_cf ce_sh]; auto; try lia;
    try (apply D; reflexivity); try (apply D, L; lia); apply E.
Qed.

Example C80_nonvacuous :
  exists evS evR, joint ex_sl x_end x_end true false 0 0 0 0 x_opsS x_opsR x_plan evS evR.
Proof.
  destruct C08_nonvacuous_hyps as (C & T & _ & _). destruct x_ready as [RS RR].
  assert (K : same_keys ex_sl x_end x_end).
  { unfold same_keys. cbn [x_end ce_cy ce_sh]. auto 10. }
  destruct (C80_exact ex_sl x_end x_end true false 0 0 x_opsS 0 0 x_opsR x_plan K RS RR)
    as (evS & evR & ES & ER & _).
  exists evS, evR. unfold joint. refine (conj K (conj RS (conj RR (conj ES (conj ER _))))).
  assert (Ep : x_pkts = map snd (sent x_opsS evS)) by (unfold x_pkts; rewrite ES; reflexivity).
  assert (N : forall k, (k < 3)%nat -> exists q, nth_error (sent x_opsS evS) k = Some (q, b_data (x_pkt k))).
  { intros k Hk.
    assert (Ed : b_data (x_pkt k) = nth k x_pkts []).
    { do 3 (destruct k as [|k]; [vm_compute; reflexivity|]). lia. }
    rewrite Ed. rewrite Ep.
    assert (L : length (sent x_opsS evS) = 3%nat).
    { rewrite <- (map_length snd), <- Ep. vm_compute. reflexivity. }
    destruct (nth_error (sent x_opsS evS) k) as [[q d]|] eqn:En.
    - exists q. do 2 f_equal. symmetry. apply nth_error_nth. rewrite nth_error_map, En. reflexivity.
    - apply nth_error_None in En. lia. }
  unfold x_opsR, x_plan.
  repeat constructor; cbn [carries]; try reflexivity; try (apply N; lia).
  intros nonce q L E. unfold seal in E. cbn [x_end ce_sh ce_cy] in E.
  destruct (sl_digest _ _ _) as [d|]; [|discriminate].
  assert (B : b_data x_foreign = repeat 1%N 29) by (vm_compute; reflexivity).
  rewrite B in E. injection E as E. discriminate.
Qed.

Example C80_nonvacuous_in_order :
  in_order (0 + 3600000) 0 [PRecv 10 (Some 0%nat); PSend 20; PRecv 30 None; PRecv 40 (Some 2%nat)].
Proof. cbn [in_order]. lia. Qed.

(** ** What does not hold *)

(** The datagrams must not include the packets an end has sent itself: an end
    hands its own packet to its upper layer when it is sent back to it. *)
Theorem C80_reflection_refuted :
  exists t0 ops evs i p,
    Forall (op_ready x_end) ops /\
    chan_run x_end (common_init t0 false false 0) ops = Ok evs /\
    nth_error evs i = Some (Delivered p false) /\
    match ops with
    | [OSend _ b _; ORecv _ b' _] => b_data b = p /\ nth_error (sent ops evs) 0 = Some (p, b_data b')
    | _ => False
    end.
Proof.
  destruct C08_nonvacuous_hyps as (C & T & _ & _).
  exists 0, [OSend 1 (x_in 77) x_g;
             ORecv 2 (ex_recv (match chan_run x_end (common_init 0 false false 0) [OSend 1 (x_in 77) x_g] with
                               | Ok [Sent d] => d | _ => [] end)) x_g].
  eexists _, 1%nat, [77;2;3;4;5]%N. split; [|split; [vm_compute; reflexivity|split; [reflexivity|vm_compute; auto]]].
  constructor; [|constructor; [|constructor]]; cbn [op_ready x_end ce_cf ce_sh].
  - unfold enc_ready, buf_wf. cbn. repeat split; lia.
  - split; [lia|]. match goal with |- dec_ready _ _ (ex_recv ?d) _ => assert (H : length d = 29%nat) by (vm_compute; reflexivity);
      generalize dependent d end.
    intros d H. unfold dec_ready, buf_wf, ex_recv. cbn [b_mem b_off b_len m_max_buffer m_encrypt_headroom ex_cf].
    rewrite !app_length, !repeat_length, H. cbn. repeat split; lia.
Qed.
Print Assumptions C80_reflection_refuted.
