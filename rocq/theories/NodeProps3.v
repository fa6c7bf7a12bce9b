(** Theorems about nodes: reloading the peer directories, missing remotes, configured addresses *)
From Verif Require Import Base BufferModel NonceModel MethodModel HandshakeModel HandshakeSpec EthSpec NodeModel NodeExamples
  NodeSpec NodeProofs NodeProofs3 NodeReloadSpec NodeReload NodeReload2 NodeReload3 NodeOwn2.
Local Open Scope Z_scope.

(** C35: after a reload the enabled peers other than dynamic ones are those with exactly
    one definition, in the configuration file or the directories, and another key than
    the node's own; and they are as their definition says. *)
Theorem C35_configured : forall P static defs n n', reloads P static defs n n' ->
  (forall p, configured n' p -> p_key p <> c_own P /\ exists c, of_key (p_key p) (static ++ defs) = [c] /\ agrees p c) /\
  (forall k c, of_key k (static ++ defs) = [c] -> k <> c_own P -> exists p, configured n' p /\ agrees p c).
Proof.
  intros P static defs n n' H. split.
  - intros p. exact (configured_to P static defs n n' p H).
  - intros k c. exact (configured_from P static defs n n' k c H).
Qed.
Print Assumptions C35_configured.

(** A peer whose definition did not change keeps its number; when it is connected,
    nothing about it changes. *)
Theorem C35_kept : forall P static defs n n' p c, reloads P static defs n n' -> configured n p -> p_key p <> c_own P ->
  of_key (p_key p) (static ++ defs) = [c] -> agrees p c ->
  exists p', configured n' p' /\ agrees p' c /\ p_id p' = p_id p /\ (is_established p = true -> p' = p).
Proof. exact kept_peer. Qed.
Print Assumptions C35_kept.

(** All other peers that were not added dynamically are removed or disabled, and not
    connected any more. *)
Theorem C35_dropped : forall P static defs n n' p, reloads P static defs n n' -> In p (n_peers n) -> p_conf p <> CDynamic ->
  (p_key p = c_own P \/ forall c, of_key (p_key p) (static ++ defs) = [c] -> ~ agrees p c) ->
  (forall p', In p' (n_peers n') -> p_id p' = p_id p -> p_conf p' = CDisabled /\ is_established p' = false) /\
  up (n_out n') (p_id p) = false.
Proof. exact dropped_down. Qed.
Print Assumptions C35_dropped.

(** Dynamic peers stay as they are, unless there is a definition with their key. *)
Theorem C35_dynamic : forall P static defs n n' p, reloads P static defs n n' -> dynamic n p ->
  (of_key (p_key p) defs = [] -> In p (n_peers n')) /\
  (of_key (p_key p) defs <> [] -> (forall p', In p' (n_peers n') -> p_id p' <> p_id p) /\ up (n_out n') (p_id p) = false).
Proof.
  intros P static defs n n' p H Hd. split; [exact (dynamic_stays P static defs n n' p H Hd) | exact (dynamic_down P static defs n n' p H Hd)].
Qed.
Print Assumptions C35_dynamic.

(** key 5 is in the configuration file, 8 and 6 in a directory; 9 was added dynamically.
    Then 8 is the same, 6 is changed, 5 is defined again, 1 is the own key. *)
Example C35_hypotheses_met : exists n n', reloads P_sync [ex_conf 5 [] true] [ex_conf 8 [] true; ex_conf 6 [] false; ex_conf 5 [] false; ex_conf 1 [] true] n n' /\
  map (fun p => (p_id p, p_key p, p_conf p, p_state p)) (n_peers n) =
    [(1%N, k32 5, CStatic, Passive); (2%N, k32 8, CStatic, Passive); (3%N, k32 6, CStatic, Passive); (4%N, k32 9, CDynamic, Established)] /\
  map (fun p => (p_id p, p_key p, p_conf p, p_state p)) (n_peers n') =
    [(1%N, k32 5, CDisabled, Inactive); (2%N, k32 8, CStatic, Passive); (4%N, k32 9, CDynamic, Established);
     (5%N, k32 6, CStatic, Passive); (6%N, k32 1, CDisabled, Inactive)].
Proof.
  eexists. eexists. split; [|split].
  - exists 1000%N, ([1] ++ repeat 0 40)%N, [ex_conf 8 [] true; ex_conf 6 [] true], evs_dyn, 10%N. split; vm_compute; reflexivity.
  - vm_compute. reflexivity.
  - vm_compute. reflexivity.
Qed.

(** C36: after a reload the group, remotes, float option and interface of a peer are those
    of its definition. *)
Theorem C36_options : forall P static defs n n' p c, reloads P static defs n n' -> configured n' p -> of_key (p_key p) (static ++ defs) = [c] ->
  p_group p = pc_group c /\ configured_remotes p = pc_remotes c /\ p_floating p = pc_floating c /\ p_ifname p = pc_ifname c.
Proof. exact options_of. Qed.
Print Assumptions C36_options.

(** The MTU after a reload is that of the definition if the peer is new or something
    else was changed too, ... *)
Theorem C36_mtu : forall P static defs n n' p', reloads P static defs n n' -> configured n' p' ->
  exists c, of_key (p_key p') (static ++ defs) = [c] /\
    ((exists p, In p (n_peers n) /\ p_conf p <> CDynamic /\ p_id p' = p_id p /\ agrees p c /\ p_mtu p' = p_mtu p) \/
     ((forall p, In p (n_peers n) -> p_key p = p_key p' -> p_conf p = CDynamic \/ ~ agrees p c) /\ p_mtu p' = pc_mtu c)).
Proof. exact mtu_of. Qed.
Print Assumptions C36_mtu.

(** ... but otherwise the new MTU is ignored. *)
Definition conf_mtu (m : N) : pconf := mk_pconf (k32 9) [0%nat] true [] true None m.
Theorem C36_refuted : exists n n' p c, reloads P_tap [] [c] n n' /\ configured n' p /\ of_key (p_key p) [c] = [c] /\ pc_mtu c = 1300%N /\
  p_mtu p = 1400%N.
Proof.
  eexists. eexists. eexists. exists (conf_mtu 1300). split; [|split; [|split; [|split]]].
  - exists 1000%N, (repeat 0 40)%N, [conf_mtu 1400], evs9, 10%N. split; vm_compute; reflexivity.
  - split; [vm_compute; left; reflexivity | vm_compute; reflexivity].
  - vm_compute. reflexivity.
  - reflexivity.
  - vm_compute. reflexivity.
Qed.
Print Assumptions C36_refuted.

(** C37: a peer may float and has no remotes; the reply to its handshake could not be
    sent with the local address.  The task of the peer then uses its missing first
    remote. *)
Theorem C37_refuted : exists n p, reachable P_tap n /\ find_id (n_peers n) 1 = Some p /\ p_remotes p = [] /\
  step P_tap (80000%N, EvTask 1) n = UB.
Proof.
  eexists. eexists. split; [|split; [|split]].
  - exists 1000%N, ([1] ++ repeat 0 30)%N, static9, [], [(0%N, from 7 (pkt_init 9 50))]. vm_compute. reflexivity.
  - vm_compute. reflexivity.
  - reflexivity.
  - vm_compute. reflexivity.
Qed.
Print Assumptions C37_refuted.

(** C48: without reloads nobody ever uses the address of another peer. *)
Theorem C48_respected : forall P now orc static dirs evs n a, execute P now orc static dirs evs = Ok n ->
  (forall dt defs, ~ In (dt, EvReload defs) evs) -> respected n a.
Proof. exact respected_always. Qed.
Print Assumptions C48_respected.

(** 9 is connected from 7, the peer with the address 6 uses it; 9 could not connect from 6 *)
Example C48_respected_met : exists n q p, execute P_sync 1000 (repeat 0%N 60) (static9 ++ [ex_conf 8 [(None, 6%N)] false]) []
    (evs9 ++ [(1000%N, EvTask 2); (1000%N, EvTask 1); (20000%N, from 6 (pkt_init 9 50)); (10%N, from 6 (pkt_fin 9 50 1 m_gmac))]) = Ok n /\
  owner n 6%N q /\ uses n 6%N q /\ uses n 7%N p /\ p_key p = k32 9 /\ p_id p <> p_id q.
Proof.
  eexists. eexists. eexists. split; [vm_compute; reflexivity|]. split; [split; [split|split]|split; [split|split; [split|split]]].
  - right. left. reflexivity.
  - reflexivity.
  - reflexivity.
  - left. reflexivity.
  - right. left. reflexivity.
  - reflexivity.
  - left. reflexivity.
  - reflexivity.
  - reflexivity.
  - discriminate.
Qed.

(** In all executions: whatever happens but a reload, an address that is not used by
    another peer stays so, and a reload gives no addresses to anyone, so that an unused
    address is safe after it. *)
Theorem C48_kept : forall P n dt ev n' a, reachable P n -> handles P n dt ev n' -> (forall defs, ev <> EvReload defs) -> respected n a -> respected n' a.
Proof. exact respected_kept. Qed.
Print Assumptions C48_kept.
Theorem C48_reload : forall P n dt defs n' a, reachable P n -> handles P n dt (EvReload defs) n' ->
  (forall p', uses n' a p' -> exists p, uses n a p /\ p_id p = p_id p') /\ ((forall p, ~ uses n a p) -> respected n' a).
Proof.
  intros P n dt defs n' a R H. split; [intros p'; exact (reload_addresses P n dt defs n' a p' R H) | exact (unused_respected P n dt defs n' a R H)].
Qed.
Print Assumptions C48_reload.

(** But an address that is in use during the reload stays in use: the peer with key 9 is connected from address 7, then a definition with this
    address as the only remote of another peer is added.  The first peer goes on using it. *)
Theorem C48_refuted : exists n n1 n2 p q t sid nonce, reloads P_sync static9 [ex_conf 8 [(None, 7%N)] false] n n1 /\
  handles P_sync n1 30000 (EvIface None 2 3) n2 /\
  In p (n_peers n2) /\ In q (n_peers n2) /\ p_id p <> p_id q /\
  p_conf q = CStatic /\ p_floating q = false /\ configured_remotes q = [(None, 7%N)] /\ p_addr p = Some 7%N /\
  newly n1 n2 t (OData (p_id p) sid nonce 7%N).
Proof.
  eexists. eexists. eexists. eexists. eexists. eexists. eexists. eexists. split; [|split; [|split; [|split; [|split; [|split; [|split; [|split; [|split]]]]]]]].
  - exists 1000%N, (repeat 0 40)%N, [], evs9, 10%N. split; vm_compute; reflexivity.
  - vm_compute. reflexivity.
  - vm_compute. left. reflexivity.
  - vm_compute. right. left. reflexivity.
  - vm_compute. discriminate.
  - vm_compute. reflexivity.
  - vm_compute. reflexivity.
  - vm_compute. reflexivity.
  - vm_compute. reflexivity.
  - eexists [_]. split; [vm_compute; reflexivity | left; reflexivity].
Qed.
Print Assumptions C48_refuted.
