(** Theorems about nodes: authentication, ephemeral keys, verification, addresses,
    connection limits, ids, session lifetimes *)
From Verif Require Import Base BufferModel NonceModel MethodModel HandshakeModel HandshakeSpec NodeModel NodeExamples
  NodeSpec NodeProofs NodeProofs2 NodeProofs3.
From Coq Require Import Sorted.
Local Open Scope Z_scope.

(** C26: session keys are derived only in the event of receiving a packet that is
    authenticated with the handshake key shared with the peer's public key and an
    ephemeral key of this node that is valid now. *)
Theorem C26_session_needs_proof : forall P n dt ev n' t pid key conf initiator serial hk salt sigma method sid src,
  reachable P n -> handles P n dt ev n' ->
  newly n n' t (OSession pid key conf initiator serial hk salt sigma method sid src) ->
  exists sk la d k,
    ev = EvRecv sk la src d /\ authenticated (c_mac P) d salt key hk (c_own P) (c_eph P serial) /\
    c_shared P initiator serial key hk = Some (sigma, salt) /\
    (k = n_cur n' \/ k = n_prev n') /\ k_serial k = serial /\ n_now n' < k_valid_till k /\
    (conf = CStatic \/ conf = CDynamic) /\
    (forall p, find_id (n_peers n') pid = Some p -> p_key p = key).
Proof. exact session_needs_proof. Qed.
Print Assumptions C26_session_needs_proof.

(** ... and a peer is connected only with such a session. *)
Theorem C26_connected_has_session : forall P n p, reachable P n -> In p (n_peers n) -> p_state p = Established ->
  exists s t, p_sess p = Some s /\ created (n_out n) t (p_id p) (p_key p) (ss_method s) (ss_id s).
Proof. exact connected_session. Qed.
Print Assumptions C26_connected_has_session.

Example C26_hypotheses_met : exists n n' t key hk salt sigma,
  reachable P_tap n /\ handles P_tap n 10 (from 7 (pkt_fin 9 50 1 m_gmac)) n' /\
  newly n n' t (OSession 1 key CStatic false 1 hk salt sigma m_gmac 0 7%N) /\
  exists p, In p (n_peers n') /\ p_state p = Established.
Proof.
  do 7 eexists. split; [|split; [|split]].
  - exists 1000%N, orc9, static9, [], [(0%N, from 7 (pkt_init 9 50))]. vm_compute. reflexivity.
  - unfold handles. vm_compute. reflexivity.
  - eexists [_; _; _]. split; [vm_compute; reflexivity | right; right; left; reflexivity].
  - eexists. split; [left; reflexivity | reflexivity].
Qed.

(** C27: each session of a peer uses an ephemeral key that is newer than those of all
    its sessions before; for configured peers also across deletion and addition of
    the same key. *)
Theorem C27_keys_used_once : forall P n newer t o older pid key serial, reachable P n -> n_out n = newer ++ (t, o) :: older ->
  is_session o pid key serial ->
  forall t' o' key' serial', In (t', o') older -> is_session o' pid key' serial' -> (serial' < serial)%N.
Proof. exact serials_grow. Qed.
Print Assumptions C27_keys_used_once.

Theorem C27_keys_used_once_configured : forall P n newer t older pid key conf initiator serial hk salt sigma method sid src, reachable P n ->
  n_out n = newer ++ (t, OSession pid key conf initiator serial hk salt sigma method sid src) :: older -> conf <> CDynamic ->
  forall t' o' pid' serial', In (t', o') older -> is_session o' pid' key serial' -> (serial' < serial)%N.
Proof. exact serials_grow_key. Qed.
Print Assumptions C27_keys_used_once_configured.

(** An ephemeral key that exists at some time is not used 30 seconds later. *)
Theorem C27_keys_expire : forall P n n' t o pid key serial, reachable P n -> later P n n' -> newly n n' t o -> is_session o pid key serial ->
  (serial <= k_serial (n_cur n))%N -> t < n_now n + 30000.
Proof. exact keys_expire. Qed.
Print Assumptions C27_keys_expire.

(** two sessions of a peer; the second one after 20 seconds, with a new ephemeral key *)
Example C27_hypotheses_met : exists n newer t o older pid key,
  reachable P_tap n /\ n_out n = newer ++ (t, o) :: older /\ is_session o pid key 2 /\
  exists t' o' , In (t', o') older /\ is_session o' pid key 1.
Proof.
  eexists. eexists [_]. do 5 eexists. split; [|split; [|split]].
  - exists 1000%N, orc9, static9, [], ([(0%N, from 7 (pkt_init 9 50)); (10%N, from 7 (pkt_fin 9 50 1 m_gmac));
      (20000%N, from 7 (pkt_init 9 51)); (10%N, from 7 (pkt_fin 9 51 2 m_gmac))]). vm_compute. reflexivity.
  - reflexivity.
  - do 8 eexists. reflexivity.
  - do 2 eexists. split; [right; right; right; left; reflexivity|]. do 8 eexists. reflexivity.
Qed.
Example C27_expire_hypotheses_met : exists n n' t o pid key,
  reachable P_tap n /\ later P_tap n n' /\ newly n n' t o /\ is_session o pid key 1 /\ (1 <= k_serial (n_cur n))%N.
Proof.
  do 6 eexists. split; [|split; [|split; [|split]]].
  - exists 1000%N, orc9, static9, [], [(0%N, from 7 (pkt_init 9 50))]. vm_compute. reflexivity.
  - exists [(10%N, from 7 (pkt_fin 9 50 1 m_gmac))]. vm_compute. reflexivity.
  - eexists [_; _; _]. split; [vm_compute; reflexivity | right; right; left; reflexivity].
  - do 8 eexists. reflexivity.
  - vm_compute. discriminate.
Qed.

(** For dynamic peers the same key can be used again: after all connections were
    reset (signal, or the peer was dropped for another reason) a replay of the
    recorded packets within the lifetime of the ephemeral key leads to the same
    session key. *)
Theorem C27_dynamic_refuted : exists P n newer t o older t' o' pid pid' key hk salt sigma conf initiator serial method sid sid' src,
  reachable P n /\ n_out n = newer ++ (t, o) :: older /\ In (t', o') older /\
  o = OSession pid key conf initiator serial hk salt sigma method sid src /\
  o' = OSession pid' key conf initiator serial hk salt sigma method sid' src /\ pid' <> pid.
Proof.
  exists P_sync. eexists. eexists [_; _]. do 18 eexists. split; [|split; [|split; [|split; [|split]]]].
  - exists 1000%N, [1; 0; 0; 0; 0; 0; 1]%N, [], [], (evs_dyn ++ [(0%N, EvResetAll)] ++ evs_dyn). vm_compute. reflexivity.
  - reflexivity.
  - do 5 right. left. reflexivity.
  - reflexivity.
  - reflexivity.
  - discriminate.
Qed.
Print Assumptions C27_dynamic_refuted.

(** C41: a dynamic peer gets a session only if the latest verification result for this
    very peer, with the same public key, was positive and less than 60 seconds ago. *)
Theorem C41_verified_before : forall P n newer t older pid key initiator serial hk salt sigma method sid src, reachable P n ->
  n_out n = newer ++ (t, OSession pid key CDynamic initiator serial hk salt sigma method sid src) :: older ->
  exists t0, last_verdict older pid = Some (t0, key, true) /\ t0 <= t < t0 + 60000.
Proof. exact dynamic_verified. Qed.
Print Assumptions C41_verified_before.

(** Results are about the address the verified packet came from, and late results
    are about the peer and the address the command was started for. *)
Theorem C41_result_source : forall P n dt ev n' t pid key src ok, reachable P n -> handles P n dt ev n' -> newly n n' t (OVerdict pid key src ok) ->
  (exists sk la d, ev = EvRecv sk la src d) \/ ((exists k, ev = EvVerified k ok) /\ exists t0, In (t0, OVerifyStart pid src) (n_out n')).
Proof. exact verdict_source. Qed.
Print Assumptions C41_result_source.

Example C41_hypotheses_met : exists n newer t older key hk salt sigma,
  reachable P_sync n /\ n_out n = newer ++ (t, OSession 1 key CDynamic false 1 hk salt sigma m_gmac 0 7%N) :: older.
Proof.
  eexists. eexists [_; _]. do 6 eexists. split.
  - exists 1000%N, [1%N], [], [], evs_dyn. vm_compute. reflexivity.
  - reflexivity.
Qed.
Example C41_late_result : exists n n' t key,
  reachable P_async n /\ handles P_async n 5 (EvVerified 0 true) n' /\ newly n n' t (OVerdict 1 key 7%N true).
Proof.
  do 4 eexists. split; [|split].
  - exists 1000%N, [1%N], [], [], [(0%N, from 7 (pkt_init 9 50))]. vm_compute. reflexivity.
  - unfold handles. vm_compute. reflexivity.
  - eexists [_; _]. split; [vm_compute; reflexivity | right; left; reflexivity].
Qed.

(** The acceptance need not have been for the same address: the command accepts the
    peer at address 7, then the last handshake packet arrives from address 8, and
    the session is established with address 8, which was never verified. *)
Theorem C41_address_refuted : exists P n newer t older pid key initiator serial hk salt sigma method sid src,
  reachable P n /\
  n_out n = newer ++ (t, OSession pid key CDynamic initiator serial hk salt sigma method sid src) :: older /\
  (forall t' pid' key' src' ok', In (t', OVerdict pid' key' src' ok') (n_out n) -> src' <> src) /\
  exists p, In p (n_peers n) /\ p_id p = pid /\ p_state p = Established /\ p_addr p = Some src.
Proof.
  exists P_sync. eexists. eexists [_; _]. do 12 eexists. split; [|split; [|split]].
  - exists 1000%N, [1%N], [], [], [(0%N, from 7 (pkt_init 9 50)); (10%N, from 8 (pkt_fin 9 50 1 m_gmac))]. vm_compute. reflexivity.
  - reflexivity.
  - cbn [n_out In]. intros t' pid' key' src' ok' H. repeat (destruct H as [H | H]; [injection H; intros; subst; discriminate || discriminate H |]). destruct H.
  - eexists. split; [left; reflexivity|]. repeat split.
Qed.
Print Assumptions C41_address_refuted.

(** C30: two different peers never have the same remote address. *)
Theorem C30_address_unique : forall P n p q a, reachable P n -> In p (n_peers n) -> In q (n_peers n) ->
  p_addr p = Some a -> p_addr q = Some a -> p = q.
Proof. exact address_unique. Qed.
Print Assumptions C30_address_unique.

(** Packets are attributed to a peer, and their payload is delivered, only if the
    peer is connected with the very address and local address of the packet. *)
Theorem C30_received_by : forall P n dt ev n' t o pid, reachable P n -> handles P n dt ev n' -> newly n n' t o ->
  o = OSeen pid \/ (exists sid src, o = ODeliver pid sid src) ->
  exists sk la ra d pkt y p, ev = EvRecv sk la ra d /\ classify d = PData pkt y /\
    find_id (n_peers n) pid = Some p /\ is_established p = true /\ p_addr p = Some ra /\ p_laddr p = Some la.
Proof. exact received_by. Qed.
Print Assumptions C30_received_by.

Example C30_hypotheses_met : exists n n' t,
  reachable P_tap n /\ handles P_tap n 5 (from 7 (pkt_data [0; 0; 0; 0; 0; 3]%N)) n' /\ newly n n' t (ODeliver 1 0 2) /\
  exists p, In p (n_peers n) /\ p_addr p = Some 7%N.
Proof.
  do 3 eexists. split; [|split; [|split]].
  - exists 1000%N, orc9, static9, [], (firstn 3 evs9). vm_compute. reflexivity.
  - unfold handles. vm_compute. reflexivity.
  - eexists [_; _]. split; [vm_compute; reflexivity | left; reflexivity].
  - eexists. split; [left; reflexivity | reflexivity].
Qed.

(** C32: the number of connected peers of a group (including its subgroups) never
    exceeds the limit of the group. *)
Theorem C32_limits_kept : forall P n g m, reachable P n -> c_limit P g = Some m -> (length (connected n g) <= m)%nat.
Proof. intros P n g m R H. rewrite connected_count. exact (count_limit P n g m R H). Qed.
Print Assumptions C32_limits_kept.

(** The hooks for connecting and disconnecting alternate, and agree with the state
    of the peers. *)
Theorem C32_up_down_alternate : forall P n, reachable P n -> alternating (n_out n).
Proof. intros P n R. exact (proj1 (reachable_uinv P n R)). Qed.
Print Assumptions C32_up_down_alternate.
Theorem C32_up_is_connected : forall P n pid, reachable P n ->
  (up (n_out n) pid = true <-> exists p, find_id (n_peers n) pid = Some p /\ is_established p = true).
Proof. intros P n pid R. exact (proj2 (reachable_uinv P n R) pid). Qed.
Print Assumptions C32_up_is_connected.

(** the limit of group 0 is 1: when the peer with key 9 is connected, the peer with key 8 is not answered *)
Example C32_limit_reached : exists n, reachable P_tap n /\ c_limit P_tap 0%nat = Some 1%nat /\ length (connected n 0) = 1%nat /\
  up (n_out n) 1 = true /\ up (n_out n) 2 = false /\ length (n_peers n) = 2%nat.
Proof.
  eexists. split; [|split].
  - exists 1000%N, orc9, [ex_conf 9 [] true; ex_conf 8 [] true], [],
      (evs_dyn ++ [(0%N, from 8 (pkt_init 8 60)); (10%N, from 8 (pkt_fin 8 60 1 m_gmac))]). vm_compute. reflexivity.
  - reflexivity.
  - vm_compute. repeat split.
Qed.

(** C34: ids are unique, and the list is sorted by id *)
Theorem C34_sorted : forall P n, reachable P n -> StronglySorted N.lt (map p_id (n_peers n)).
Proof. intros P n R. exact (proj1 (NodeWf.wf_ids _ (NodeInv.i_wf _ _ (NodeInv.i_0 _ _ (reachable_inv P n R))))). Qed.
Print Assumptions C34_sorted.

(** Ids are never reused: if a peer has an id that a peer had before, it has the same
    key, and was there all the time in between. *)
Theorem C34_never_reused : forall P n n1 n2 p p2, reachable P n -> later P n n1 -> later P n1 n2 ->
  In p (n_peers n) -> In p2 (n_peers n2) -> p_id p2 = p_id p ->
  p_key p2 = p_key p /\ exists p1, In p1 (n_peers n1) /\ p_id p1 = p_id p.
Proof. exact gone_for_good. Qed.
Print Assumptions C34_never_reused.

(** Looking up an id finds the peer with the id, if there is one *)
Theorem C34_lookup : forall P n p, reachable P n -> In p (n_peers n) -> find_id (n_peers n) (p_id p) = Some p.
Proof. intros P n p R H. exact (found_in n p (NodeWf.wf_ids _ (NodeInv.i_wf _ _ (NodeInv.i_0 _ _ (reachable_inv P n R)))) H). Qed.
Print Assumptions C34_lookup.

(** the dynamic peer 1 is deleted, then the same key is added again, as peer 2 *)
Example C34_hypotheses_met : exists n n1 n2 p p2,
  reachable P_sync n /\ later P_sync n n1 /\ later P_sync n1 n2 /\ n_peers n = [p] /\ n_peers n1 = [] /\ n_peers n2 = [p2] /\
  p_key p2 = p_key p /\ p_id p = 1%N /\ p_id p2 = 2%N.
Proof.
  do 5 eexists. split; [|split; [|split]].
  - exists 1000%N, [1; 0; 0; 0; 0; 0; 1]%N, [], [], evs_dyn. vm_compute. reflexivity.
  - exists [(0%N, EvResetAll)]. vm_compute. reflexivity.
  - exists evs_dyn. vm_compute. reflexivity.
  - repeat split.
Qed.
Example C34_same_id_met : exists n n1 n2 p p2,
  reachable P_tap n /\ later P_tap n n1 /\ later P_tap n1 n2 /\ In p (n_peers n) /\ In p2 (n_peers n2) /\ p_id p2 = p_id p.
Proof.
  do 5 eexists. split; [|split; [|split; [|split; [|split]]]].
  - exists 1000%N, orc9, static9, [], []. vm_compute. reflexivity.
  - exists (firstn 2 evs9). vm_compute. reflexivity.
  - exists (skipn 2 evs9). vm_compute. reflexivity.
  - left. reflexivity.
  - left. reflexivity.
  - reflexivity.
Qed.

(** C01 for whole nodes: no two packets of a session have the same nonce, and the numbers
    of sessions are unique *)
Theorem C01_node_nonces : forall P n, reachable P n -> NoDup (sent_nonces (n_out n)) /\ NoDup (session_ids (n_out n)).
Proof. intros P n R. pose proof (reachable_sinv P n R) as S. split; [exact (si_nonces _ _ S) | exact (si_ids _ _ S)]. Qed.
Print Assumptions C01_node_nonces.
Example C01_node_nonces_met : exists n, reachable P_tap n /\ length (sent_nonces (n_out n)) = 2%nat /\ session_ids (n_out n) = [0%N].
Proof. eexists. split; [exists 1000%N, orc9, static9, [], evs9; vm_compute; reflexivity | split; vm_compute; reflexivity]. Qed.

(** C07 for whole nodes: whenever a packet is sent with or delivered from a session, the
    session was created before, and (unless the method is a null method) less than
    an hour ago *)
Theorem C07_node_sessions_expire : forall P n t o pid sid, reachable P n -> In (t, o) (n_out n) -> uses o pid sid ->
  exists t0 key m, created (n_out n) t0 pid key m sid /\ t0 <= t /\ (c_null P m = false -> t < t0 + 3600000).
Proof. intros P n t o pid sid R. exact (si_used _ _ (reachable_sinv P n R) t o pid sid). Qed.
Print Assumptions C07_node_sessions_expire.

(** A session is used less than 60 seconds longer after a newer one was created for
    the same peer. *)
Theorem C07_node_superseded : forall P n t o pid sid t1 key m sid', reachable P n -> In (t, o) (n_out n) -> uses o pid sid ->
  created (n_out n) t1 pid key m sid' -> (sid < sid')%N -> t < t1 + 60000.
Proof. intros P n t o pid sid t1 key m sid' R. exact (si_end _ _ (reachable_sinv P n R) t o pid sid t1 key m sid'). Qed.
Print Assumptions C07_node_superseded.

(** packets of the old session are received after the new one was created *)
Example C07_node_hypotheses_met : exists n t o t1 key m,
  reachable P_tap n /\ In (t, o) (n_out n) /\ uses o 1 0 /\ created (n_out n) t1 1 key m 1 /\ t1 < t.
Proof.
  do 6 eexists. split; [|split; [|split; [|split]]].
  - exists 1000%N, [0; 0; 0; 0; 0; 0; 0; 0; 0; 1; 1; 1; 2; 3]%N, static9, [], (evs_dyn ++ [(20000%N, from 7 (pkt_init 9 51)); (10%N, from 7 (pkt_fin 9 51 2 m_gmac));
      (500%N, from 7 (pkt_data [0; 0; 0; 0; 0; 3]%N))]). vm_compute. reflexivity.
  - left. reflexivity.
  - right. eexists. reflexivity.
  - do 7 eexists. do 3 right. left. reflexivity.
  - reflexivity.
Qed.

(** Sessions of null methods do not expire: a packet is sent two hours after the session was created *)
Theorem C07_null_refuted : exists P n t o pid sid,
  reachable P n /\ In (t, o) (n_out n) /\ uses o pid sid /\
  forall t0 key m, created (n_out n) t0 pid key m sid -> t0 + 7200000 <= t.
Proof.
  exists P_tap. do 5 eexists. split; [|split; [|split]].
  - exists 1000%N, [], static9, [], ([(0%N, from 7 (pkt_init 9 50)); (10%N, from 7 (pkt_fin 9 50 1 m_null)); (7200000%N, EvIface None 2 3)]). vm_compute. reflexivity.
  - left. reflexivity.
  - left. do 2 eexists. reflexivity.
  - intros t0 key m (conf & ini & serial & hk & salt & sigma & src & H). cbn [n_out In] in H.
    repeat (destruct H as [H | H]; [injection H; intros; subst; first [discriminate H | vm_compute; discriminate] | try discriminate H]); try destruct H.
Qed.
Print Assumptions C07_null_refuted.
