(** Theorems about nodes: pauses between handshakes, timeouts and keepalives *)
From Verif Require Import Base BufferModel NonceModel MethodModel HandshakeModel HandshakeSpec NodeModel NodeExamples
  NodeSpec NodeProofs NodeProofs2 NodeProofs3 NodeProofs4 NodeProofs5 NodeProofs6.
Local Open Scope Z_scope.

(** C28: as long as a peer stays connected, there are 15 seconds between two
    sessions with it ... *)
Theorem C28_sessions_spaced : forall P n dt ev n1 t1 o1 pid key1 serial1 n2 dt2 ev2 n3 t3 o3 key3 serial3,
  reachable P n -> handles P n dt ev n1 -> newly n n1 t1 o1 -> is_session o1 pid key1 serial1 ->
  later P n1 n2 -> up (n_out n2) pid = true ->
  handles P n2 dt2 ev2 n3 -> newly n2 n3 t3 o3 -> is_session o3 pid key3 serial3 -> (forall t, ~ newly n2 n3 t (ODown pid)) ->
  t1 + 15000 <= t3.
Proof. exact sessions_spaced. Qed.
Print Assumptions C28_sessions_spaced.

(** ... and no initial handshake is answered in that time. *)
Theorem C28_responses_paused : forall P n dt ev n1 t1 o1 pid key1 serial1 n2 dt2 sk la ra d n3 t3 a serial3 m3,
  reachable P n -> handles P n dt ev n1 -> newly n n1 t1 o1 -> is_session o1 pid key1 serial1 ->
  later P n1 n2 -> up (n_out n2) pid = true ->
  handles P n2 dt2 (EvRecv sk la ra d) n3 -> newly n2 n3 t3 (OResp pid a serial3 m3) -> (forall t, ~ newly n2 n3 t (ODown pid)) ->
  t1 + 15000 <= t3.
Proof. exact responses_paused. Qed.
Print Assumptions C28_responses_paused.

(** The pause can end exactly then: after 15025 ms a handshake is answered and another
    session begins. *)
Example C28_hypotheses_met : exists n n1 n2 n3 n4 t1 t3 t4 o1 o4 key1 key4 m,
  reachable P_tap n /\ handles P_tap n 10 (from 7 (pkt_fin 9 50 1 m_gmac)) n1 /\ newly n n1 t1 o1 /\ is_session o1 1 key1 1 /\
  later P_tap n1 n2 /\ up (n_out n2) 1 = true /\
  handles P_tap n2 15000 (from 7 (pkt_init 9 51)) n3 /\ newly n2 n3 t3 (OResp 1 7%N 2 m) /\ n_out n3 = [(t3, OResp 1 7%N 2 m)] ++ n_out n2 /\
  handles P_tap n3 10 (from 7 (pkt_fin 9 51 2 m_gmac)) n4 /\ newly n3 n4 t4 o4 /\ is_session o4 1 key4 2 /\ t3 = t1 + 15025.
Proof.
  do 13 eexists. split; [|split; [|split; [|split; [|split; [|split; [|split; [|split; [|split; [|split; [|split; [|split]]]]]]]]]]].
  - exists 1000%N, (repeat 0%N 30), static9, [], [(0%N, from 7 (pkt_init 9 50))]. vm_compute. reflexivity.
  - unfold handles. vm_compute. reflexivity.
  - eexists [_; _; _]. split; [vm_compute; reflexivity | right; right; left; reflexivity].
  - do 8 eexists. reflexivity.
  - exists [(20%N, EvIface None 2 3); (5%N, from 7 (pkt_data [0; 0; 0; 0; 0; 3]%N))]. vm_compute. reflexivity.
  - vm_compute. reflexivity.
  - unfold handles. vm_compute. reflexivity.
  - eexists [_]. split; [vm_compute; reflexivity | left; reflexivity].
  - vm_compute. reflexivity.
  - unfold handles. vm_compute. reflexivity.
  - eexists [_; _]. split; [vm_compute; reflexivity | right; left; reflexivity].
  - do 8 eexists. reflexivity.
  - reflexivity.
Qed.

(** The first part of C28 is false: only the last address is remembered, so with
    packets from two addresses in turn, the same address is answered again at once. *)
Theorem C28_one_per_address_refuted :
  ~ (forall P n pid a s1 m1 s2 m2 t1 t2 newer mid older, reachable P n ->
       n_out n = newer ++ (t2, OResp pid a s2 m2) :: mid ++ (t1, OResp pid a s1 m1) :: older -> t1 + 15000 <= t2).
Proof.
  intros H.
  assert (X : exists n m1 m2 m3, execute P_tap 1000 (repeat 0%N 20) static9 []
    [(0%N, from 7 (pkt_init 9 50)); (10%N, from 8 (pkt_init 9 50)); (10%N, from 7 (pkt_init 9 50))] = Ok n /\
    n_out n = [] ++ (1020, OResp 1 7%N 1 m1) :: [(1010, OResp 1 8%N 1 m2)] ++ (1000, OResp 1 7%N 1 m3) :: []).
  { do 4 eexists. split; vm_compute; reflexivity. }
  destruct X as (n & m1 & m2 & m3 & E & O). specialize (H P_tap n 1%N 7%N 1%N m3 1%N m1 1000 1020 _ _ _ (ex_intro _ _ (ex_intro _ _ (ex_intro _ _ (ex_intro _ _ (ex_intro _ _ E))))) O).
  vm_compute in H. apply H. reflexivity.
Qed.
Print Assumptions C28_one_per_address_refuted.

(** What does hold: as long as a configured peer stays connected and no packets from other
    addresses arrive, there are 15 seconds between two responses to the same address. *)
Theorem C28_same_address_spaced : forall P n dt ev n1 t1 pid a s1 m1 p1 evs n2 dt2 ev2 n3 t3 s3 m3,
  reachable P n -> handles P n dt ev n1 -> newly n n1 t1 (OResp pid a s1 m1) ->
  find_id (n_peers n1) pid = Some p1 -> p_conf p1 <> CDynamic -> up (n_out n1) pid = true ->
  run P evs n1 = Ok (tt, n2) -> (forall e, In e evs -> only_from a e) ->
  handles P n2 dt2 ev2 n3 -> newly n2 n3 t3 (OResp pid a s3 m3) -> (forall t, ~ newly n1 n3 t (ODown pid)) ->
  t1 + 15000 <= t3.
Proof. exact responses_spaced. Qed.
Print Assumptions C28_same_address_spaced.

(** The peer is connected and answered; the second handshake, 10 seconds later, is not
    answered; the third, exactly 15 seconds after the first, is. *)
Example C28_same_address_met : exists n n1 p1 n2 n3 t1 t3 m1 m3 evs,
  reachable P_tap n /\ handles P_tap n 15000 (from 7 (pkt_init 9 51)) n1 /\ newly n n1 t1 (OResp 1 7%N 2 m1) /\
  find_id (n_peers n1) 1 = Some p1 /\ p_conf p1 <> CDynamic /\ up (n_out n1) 1 = true /\
  evs = [(10000%N, from 7 (pkt_init 9 51)); (4000%N, EvIface None 2 3)] /\ run P_tap evs n1 = Ok (tt, n2) /\ (forall e, In e evs -> only_from 7%N e) /\
  handles P_tap n2 1000 (from 7 (pkt_init 9 51)) n3 /\ newly n2 n3 t3 (OResp 1 7%N 3 m3) /\ (forall t, ~ newly n1 n3 t (ODown 1)) /\ t3 = t1 + 15000.
Proof.
  do 10 eexists. split; [|split; [|split; [|split; [|split; [|split; [|split; [|split; [|split; [|split; [|split; [|split]]]]]]]]]]].
  - exists 1000%N, (repeat 0%N 30), static9, [], [(0%N, from 7 (pkt_init 9 50)); (10%N, from 7 (pkt_fin 9 50 1 m_gmac))]. vm_compute. reflexivity.
  - unfold handles. vm_compute. reflexivity.
  - eexists [_]. split; [vm_compute; reflexivity | left; reflexivity].
  - vm_compute. reflexivity.
  - discriminate.
  - vm_compute. reflexivity.
  - reflexivity.
  - vm_compute. reflexivity.
  - intros e [<-|[<-|[]]]; [reflexivity | exact Logic.I].
  - unfold handles. vm_compute. reflexivity.
  - eexists [_]. split; [vm_compute; reflexivity | left; reflexivity].
  - intros t (l & E & Hin). cbn [n_out] in E. apply (app_inv_tail _ [_; _] l) in E. subst l. destruct Hin as [X|[X|[]]]; discriminate.
  - reflexivity.
Qed.

(** C38: the task of a connected peer is scheduled at most 20 seconds after the last
    packet sent to it, and for configured peers at most 90 seconds after the last
    packet received. *)
Theorem C38_task_scheduled : forall P n pid, reachable P n -> up (n_out n) pid = true ->
  exists p tk, find_id (n_peers n) pid = Some p /\ p_task p = Some tk /\
    (exists t o, In (t, o) (n_out n) /\ is_tx pid o /\ tk <= t + 20000) /\
    (p_conf p <> CDynamic -> exists t o, In (t, o) (n_out n) /\ is_rx pid o /\ tk <= t + 90000).
Proof. exact task_in_time. Qed.
Print Assumptions C38_task_scheduled.

(** When it runs 20 seconds or more after the last packet to a connected peer, it
    sends one (or fails to encrypt it), or disconnects the peer. *)
Theorem C38_keepalive_sent : forall P n dt n' pid, reachable P n -> up (n_out n) pid = true -> handles P n dt (EvTask pid) n' ->
  (forall t o, In (t, o) (n_out n) -> is_tx pid o -> t + 20000 <= n_now n') ->
  up (n_out n') pid = false \/ exists t o, newly n n' t o /\ ((exists sid nonce dst, o = OData pid sid nonce dst) \/ o = OEncFail pid).
Proof. exact keepalive_sent. Qed.
Print Assumptions C38_keepalive_sent.

(** A configured peer that was silent for 90 seconds is disconnected then. *)
Theorem C38_silent_dropped : forall P n dt n' pid, reachable P n -> up (n_out n) pid = true -> static n pid ->
  handles P n dt (EvTask pid) n' -> (forall t o, In (t, o) (n_out n) -> is_rx pid o -> t + 90000 <= n_now n') -> up (n_out n') pid = false.
Proof. exact silent_dropped. Qed.
Print Assumptions C38_silent_dropped.

(** The task disconnects a peer only if it was silent for 90 seconds, or its session
    has expired. *)
Theorem C38_not_dropped_early : forall P n dt n' pid t, reachable P n -> handles P n dt (EvTask pid) n' -> newly n n' t (ODown pid) ->
  (forall t o, In (t, o) (n_out n) -> is_rx pid o -> t + 90000 <= n_now n') \/
  exists p, find_id (n_peers n) pid = Some p /\ sess_valid (n_now n') (p_sess p) = false.
Proof. exact not_dropped_early. Qed.
Print Assumptions C38_not_dropped_early.

(** 20 seconds after the last packet the keepalive, and 90 seconds after the last
    received packet the disconnection *)
Example C38_hypotheses_met : exists n n1 n2 t1 nonce t2,
  reachable P_tap n /\ up (n_out n) 1 = true /\ static n 1 /\
  handles P_tap n 20000 (EvTask 1) n1 /\ newly n n1 t1 (OData 1 0 (Some nonce) 7%N) /\ up (n_out n1) 1 = true /\
  handles P_tap n1 70000 (EvTask 1) n2 /\ newly n1 n2 t2 (ODown 1) /\
  (forall t o, In (t, o) (n_out n1) -> is_rx 1 o -> t + 90000 <= n_now n2).
Proof.
  do 6 eexists. split; [|split; [|split; [|split; [|split; [|split; [|split; [|split]]]]]]].
  - exists 1000%N, (repeat 0%N 30), static9, [], evs9. vm_compute. reflexivity.
  - vm_compute. reflexivity.
  - intros p Hp. vm_compute in Hp. injection Hp as <-. discriminate.
  - unfold handles. vm_compute. reflexivity.
  - eexists [_]. split; [vm_compute; reflexivity | left; reflexivity].
  - vm_compute. reflexivity.
  - unfold handles. vm_compute. reflexivity.
  - eexists [_]. split; [vm_compute; reflexivity | left; reflexivity].
  - intros t o Hin Ho. vm_compute in Hin.
    repeat (destruct Hin as [Hin | Hin]; [injection Hin as <- <-; first [destruct Ho; discriminate | vm_compute; discriminate] |]). destruct Hin.
Qed.

(** For peers that are verified instead of configured this is false: a verification
    that succeeds, after a packet anyone can send, extends the time. *)
Theorem C38_dynamic_refuted :
  ~ (forall P n dt n' pid, reachable P n -> up (n_out n) pid = true ->
       handles P n dt (EvTask pid) n' -> (forall t o, In (t, o) (n_out n) -> is_rx pid o -> t + 90000 <= n_now n') -> up (n_out n') pid = false).
Proof.
  intros H.
  assert (X : exists n n', execute P_sync 1000 ([1] ++ repeat 0 5 ++ [1] ++ repeat 0 30)%N [] [] (evs_dyn ++ [(80000%N, from 7 (pkt_init 9 50))]) = Ok n /\
     up (n_out n) 1 = true /\ handles P_sync n 11000 (EvTask 1) n' /\ up (n_out n') 1 = true /\
     (forall t o, In (t, o) (n_out n) -> is_rx 1 o -> t + 90000 <= n_now n')).
  { do 2 eexists. split; [vm_compute; reflexivity|]. split; [vm_compute; reflexivity|]. split; [unfold handles; vm_compute; reflexivity|].
    split; [vm_compute; reflexivity|]. intros t o Hin Ho. vm_compute in Hin.
    repeat (destruct Hin as [Hin | Hin]; [injection Hin as <- <-; first [destruct Ho; discriminate | vm_compute; discriminate] |]). destruct Hin. }
  destruct X as (n & n' & E & U & Hh & U' & Q).
  specialize (H P_sync n 11000%N n' 1%N (ex_intro _ _ (ex_intro _ _ (ex_intro _ _ (ex_intro _ _ (ex_intro _ _ E))))) U Hh Q). congruence.
Qed.
Print Assumptions C38_dynamic_refuted.
