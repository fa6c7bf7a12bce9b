(** Theorems about nodes, part 5: why connections end.  [Print Assumptions] follows
    each one. *)
From Verif Require Import Base BufferModel NonceModel MethodModel HandshakeModel HandshakeSpec NodeModel NodeSpec NodeKeepSpec NodeKeep2 NodeExamples.
From Coq Require Import Lia.
Local Open Scope Z_scope.

(** C58: every connection that ends does so for one of the reasons of [end_reason] *)
Theorem C58_reason : forall P n dt ev n' t pid, reachable P n -> handles P n dt ev n' -> up (n_out n) pid = true -> newly n n' t (ODown pid) ->
  exists p, In p (n_peers n) /\ p_id p = pid /\ end_reason P n ev n' p.
Proof. exact ends_for_reason. Qed.
Print Assumptions C58_reason.

(** without a reason it stays *)
Theorem C58_stays_up : forall P n dt ev n' pid p, reachable P n -> handles P n dt ev n' -> up (n_out n) pid = true -> In p (n_peers n) -> p_id p = pid ->
  ~ end_reason P n ev n' p -> up (n_out n') pid = true.
Proof. exact stays_up. Qed.
Print Assumptions C58_stays_up.

(** packets of anyone who cannot prove to hold the key of some peer leave the
    connections to configured peers alone *)
Theorem C58_forged_harmless : forall P n dt sk la ra d n' pid p, reachable P n -> handles P n dt (EvRecv sk la ra d) n' -> up (n_out n) pid = true ->
  In p (n_peers n) -> p_id p = pid -> p_conf p <> CDynamic -> ~ session_over (n_now n') p ->
  (forall key, allowed_key P n key -> ~ fresh_proof P n n' d key) -> up (n_out n') pid = true.
Proof. exact forged_harmless. Qed.
Print Assumptions C58_forged_harmless.

Definition P_open : params := ex_params true None None.
Definition two : list pconf := [ex_conf 9 [] true; ex_conf 8 [] true].
Definition evs_up : list (N * event) := [(0%N, from 7 (pkt_init 9 50)); (10%N, from 7 (pkt_fin 9 50 1 m_gmac))].
Definition get_node (r : res node) : node := match r with Ok n => n | _ => empty_node 0 [] end.
Definition st (P : params) (orc : list N) (conf : list pconf) (evs : list (N * event)) : node := get_node (execute P 1000 orc conf [] evs).

(** the second peer connects from the address of the first: the hypotheses of
    [C58_reason] are met, the reason is the second *)
Definition evs_two : list (N * event) := evs_up ++ [(10%N, from 7 (pkt_init 8 60))].
Definition fin8 : event := from 7 (pkt_fin 8 60 1 m_gmac).
Example C58_nonvacuous :
  let n := st P_open [] two evs_two in let n' := st P_open [] two (evs_two ++ [(10%N, fin8)]) in
  reachable P_open n /\ handles P_open n 10 fin8 n' /\ up (n_out n) 1 = true /\ newly n n' 1030 (ODown 1) /\ up (n_out n') 1 = false /\ up (n_out n') 2 = true.
Proof.
  cbv zeta. split; [exists 1000%N, [], two, [], evs_two; vm_compute; reflexivity|]. split; [vm_compute; reflexivity|]. split; [vm_compute; reflexivity|].
  split; [|split; vm_compute; reflexivity].
  exists (firstn 4 (n_out (st P_open [] two (evs_two ++ [(10%N, fin8)])))). split; [vm_compute; reflexivity|]. vm_compute. right. right. right. left. reflexivity.
Qed.

Lemma init_unauthenticated : forall mac mackey key hk own eph, ~ authenticated mac (pkt_init 9 60) mackey key hk own eph.
Proof.
  intros mac mackey key hk own eph (pkt & h & tlvs & [->| ->] & E & _ & _ & _ & _ & _ & V); vm_compute in E;
    (discriminate E || (injection E as <-; vm_compute in V; discriminate V)).
Qed.
(** a handshake request in the name of the first peer from another address: the
    hypotheses of [C58_forged_harmless] are met *)
Definition forged : event := from 8 (pkt_init 9 60).
Example C58_forged_nonvacuous :
  let n := st P_open [] two evs_up in let n' := st P_open [] two (evs_up ++ [(20000%N, forged)]) in
  reachable P_open n /\ handles P_open n 20000 forged n' /\ up (n_out n) 1 = true /\
  (exists p, In p (n_peers n) /\ p_id p = 1%N /\ p_conf p <> CDynamic /\ ~ session_over (n_now n') p) /\
  (forall key, ~ fresh_proof P_open n n' (pkt_init 9 60) key) /\ exists m, newly n n' 21010 (OResp 1 8%N 2 m).
Proof.
  cbv zeta. split; [exists 1000%N, [], two, [], evs_up; vm_compute; reflexivity|]. split; [vm_compute; reflexivity|]. split; [vm_compute; reflexivity|].
  split; [|split].
  - exists (nth 0 (n_peers (st P_open [] two evs_up)) (new_peer 0 (ex_conf 9 [] true) CStatic 0)). split; [vm_compute; left; reflexivity|].
    split; [vm_compute; reflexivity|]. split; [vm_compute; discriminate|]. vm_compute. intros [X | [X _]]; [apply X; reflexivity | discriminate].
  - intros key (i & hk & salt & sigma & k & A & _). exact (init_unauthenticated _ _ _ _ _ _ A).
  - eexists. exists (firstn 1 (n_out (st P_open [] two (evs_up ++ [(20000%N, forged)])))). split; [vm_compute; reflexivity|]. vm_compute. left. reflexivity.
Qed.

(** But anyone who knows the key of a connected peer that is not configured can
    disconnect it with a handshake request, from any address, whenever verification
    cannot be started (here: because its limit is reached). *)
Definition evs_ver : list (N * event) := [(0%N, from 7 (pkt_init 9 50)); (1%N, EvVerified 0 true); (10%N, from 7 (pkt_fin 9 50 1 m_gmac))].
Theorem C58_refuted_dynamic : exists P n n' p, reachable P n /\ handles P n 20000 forged n' /\ up (n_out n) 1 = true /\ up (n_out n') 1 = false /\
  In p (n_peers n) /\ p_id p = 1%N /\ ~ session_over (n_now n') p /\
  (forall mackey key hk own eph, ~ authenticated (c_mac P) (pkt_init 9 60) mackey key hk own eph) /\ (forall t o, newly n n' t o -> o = ODown 1).
Proof.
  exists P_async, (st P_async [1%N] [] evs_ver), (st P_async [1%N] [] (evs_ver ++ [(20000%N, forged)])),
    (nth 0 (n_peers (st P_async [1%N] [] evs_ver)) (new_peer 0 (ex_conf 9 [] true) CStatic 0)).
  split; [exists 1000%N, [1%N], [], [], evs_ver; vm_compute; reflexivity|]. split; [vm_compute; reflexivity|]. split; [vm_compute; reflexivity|].
  split; [vm_compute; reflexivity|]. split; [vm_compute; left; reflexivity|]. split; [vm_compute; reflexivity|].
  split; [vm_compute; intros [X | [X _]]; [apply X; reflexivity | discriminate]|]. split; [intros mackey key hk own eph; apply init_unauthenticated|].
  intros t o (l & E & Hin).
  assert (X : n_out (st P_async [1%N] [] (evs_ver ++ [(20000%N, forged)])) = [(21011, ODown 1)] ++ n_out (st P_async [1%N] [] evs_ver)) by (vm_compute; reflexivity).
  rewrite X in E. apply app_inv_tail in E. subst l. destruct Hin as [Y | []]. injection Y as _ <-. reflexivity.
Qed.
Print Assumptions C58_refuted_dynamic.
