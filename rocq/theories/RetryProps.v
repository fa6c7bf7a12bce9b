(** Theorems about when handshakes are sent.  [Print Assumptions] follows each one. *)
From Verif Require Import Base BufferModel NonceModel MethodModel HandshakeModel NodeModel NodeSpec NodeExamples RetryHoare2 RetrySpec RetryKeep RetryProofs.
Local Open Scope Z_scope.

(** C64: a peer a connection is wanted with is never forgotten: it has a handshake
    scheduled at most 22.5 seconds ahead, and a task that is due no later *)
Theorem C64_retry_scheduled : forall P n p, reachable P n -> In p (n_peers n) -> wanted p ->
  exists h tk, p_next_hs p = Some h /\ p_task p = Some tk /\ tk <= h <= n_now n + 22500.
Proof. exact retry_scheduled. Qed.
Print Assumptions C64_retry_scheduled.

(** the same for a connection whose session is to be replaced *)
Theorem C64_refresh_scheduled : forall P n p s, reachable P n -> In p (n_peers n) -> p_sess p = Some s -> ss_refreshing s = true ->
  is_established p = true /\ exists h tk, p_next_hs p = Some h /\ p_task p = Some tk /\ tk <= h <= n_now n + 22500.
Proof. exact refresh_scheduled. Qed.
Print Assumptions C64_refresh_scheduled.

(** nothing but its own turn puts the handshake off: any other event leaves the time and
    the place in the list of addresses as they are, or starts over from the first address
    within 3 seconds (22.5 if its hostname is looked up first), or is an answer to a
    lookup, which at most brings the handshake forward to the next 3 seconds *)
Theorem C64_not_postponed : forall P n dt ev n' p h p', reachable P n -> In p (n_peers n) -> wanted p -> p_next_hs p = Some h -> handles P n dt ev n' ->
  (ev = EvTask (p_id p) -> n_now n' < h) -> In p' (n_peers n') -> p_id p' = p_id p -> wanted p' ->
  (p_next_hs p' = Some h /\ position p' = position p /\ addresses p' = addresses p) \/
  (position p' = Some (0, 0)%nat /\ exists h', p_next_hs p' = Some h' /\ n_now n' <= h' /\ (h' < n_now n' + 3000 \/ (p_state p' = Resolving /\ h' < n_now n' + 22500))) \/
  ((exists k l, ev = EvResolved k l) /\ p_next_remote p' = p_next_remote p /\ (p_next_hs p' = Some h \/ exists h', p_next_hs p' = Some h' /\ n_now n' <= h' < n_now n' + 3000)).
Proof. exact not_postponed. Qed.
Print Assumptions C64_not_postponed.

(** A turn: unless a peer limit is reached, a handshake is sent to the address whose turn
    it is and the next one is up; the turn after this is in 17.5 to 22.5 seconds.  A
    handshake is not sent only if the hostname has no addresses, the address belongs to
    another peer, or there is no socket. *)
Theorem C64_turn : forall P n dt n' p, reachable P n -> In p (n_peers n) -> wanted p -> turn P n dt n' p ->
  exists p' l, In p' (n_peers n') /\ p_id p' = p_id p /\ wanted p' /\ says n n' l /\ soon n' p' /\ addresses p' = addresses p /\
    ((full P n p /\ position p' = None /\ l = []) \/
     (~ full P n p /\ position p = None /\ position p' = Some (0, 0)%nat /\ lookup p 0 l) \/
     (~ full P n p /\ exists x l1 l2, position p = Some x /\ position p' = Some (following (addresses p) x) /\ l = l1 ++ l2 /\ attempt n p p' x l1 /\
        (if Nat.ltb (S (snd x)) (length (nth (fst x) (addresses p) [])) then l2 = [] else lookup p (fst (following (addresses p) x)) l2))).
Proof. exact turn_effect. Qed.
Print Assumptions C64_turn.

(** All addresses have their turns: in as many turns as there are positions, and one
    more, every address was up *)
Theorem C64_round : forall P pid n l n' p x, reachable P n -> journey P pid n l n' -> wants n' pid p ->
  (length (positions p) < length l)%nat -> In x (positions p) -> In x l.
Proof. exact round_visits. Qed.
Print Assumptions C64_round.

(** ** A peer with an address and a hostname that stands for two *)
Definition RP : params := ex_params true None None.
Definition node_at (k : nat) : res node := execute RP 1000 (repeat 1%N 40) [ex_conf 2 [(None, 20%N); (Some [104%N], 0%N)] false] []
  (firstn k [(0%N, EvTask 1); (500%N, EvResolved 0 [31; 32]%N); (17001%N, EvTask 1); (1%N, EvMaintenance); (17500%N, EvTask 1); (17501%N, EvTask 1); (17501%N, EvTask 1)]).
Definition node_of (r : res node) : node := match r with Ok n => n | _ => empty_node 0 [] end.
Definition peer_of (n : node) : peer := match n_peers n with p :: _ => p | [] => new_peer 0 (ex_conf 0 [] false) CNew 0 end.
Definition r0 : node := Eval vm_compute in node_of (node_at 0).
Definition r1 : node := Eval vm_compute in node_of (node_at 1).
Definition r2 : node := Eval vm_compute in node_of (node_at 2).
Definition r3 : node := Eval vm_compute in node_of (node_at 3).
Definition r4 : node := Eval vm_compute in node_of (node_at 4).
Definition r5 : node := Eval vm_compute in node_of (node_at 5).
Definition r6 : node := Eval vm_compute in node_of (node_at 6).
Definition r7 : node := Eval vm_compute in node_of (node_at 7).
Ltac reach k := exists 1000%N, (repeat 1%N 40), [ex_conf 2 [(None, 20%N); (Some [104%N], 0%N)] false], [],
  (firstn k [(0%N, EvTask 1); (500%N, EvResolved 0 [31; 32]%N); (17001%N, EvTask 1); (1%N, EvMaintenance); (17500%N, EvTask 1); (17501%N, EvTask 1); (17501%N, EvTask 1)]); vm_compute; reflexivity.
Ltac wanting := split; [left; reflexivity|]; split; [reflexivity|]; split; [reflexivity|]; split; [reflexivity | discriminate].
Ltac turning h := split; [vm_compute; reflexivity | exists h; split; [reflexivity | discriminate]].

Example C64_nonvacuous_turn :
  reachable RP r0 /\ In (peer_of r0) (n_peers r0) /\ wanted (peer_of r0) /\ turn RP r0 0 r1 (peer_of r0) /\ ~ full RP r0 (peer_of r0) /\
  position (peer_of r0) = Some (0, 0)%nat /\ position (peer_of r1) = Some (1, 0)%nat /\ says r0 r1 [OInit (Some 1%N) 20%N; OResolve 1 1] /\ soon r1 (peer_of r1) /\
  reachable RP r3 /\ handles RP r3 1 EvMaintenance r4 /\ wanted (peer_of r3) /\ p_next_hs (peer_of r4) = p_next_hs (peer_of r3).
Proof.
  split; [reach 0%nat|]. split; [left; reflexivity|]. split; [split; [reflexivity|]; split; [reflexivity | discriminate]|]. split; [turning 1000|].
  split; [intros (g & m & Hg & Hm & _); destruct Hg as [<- | []]; discriminate|]. split; [reflexivity|]. split; [reflexivity|]. split; [vm_compute; reflexivity|].
  split; [exists 18501; split; [reflexivity | split; [discriminate | reflexivity]]|]. split; [reach 3%nat|]. split; [vm_compute; reflexivity|]. split; [split; [reflexivity|]; split; [reflexivity | discriminate] | reflexivity].
Qed.
Example C64_nonvacuous_round : reachable RP r2 /\ journey RP 1 r2 [(1, 0); (1, 1); (0, 0); (1, 0)]%nat r7 /\ wants r7 1 (peer_of r7) /\ positions (peer_of r7) = [(0, 0); (1, 0); (1, 1)]%nat.
Proof.
  assert (F : forall n p, p_group p = [0%nat] -> ~ full RP n p) by (intros n p Eg (g & m & Hg & Hm & _); rewrite Eg in Hg; destruct Hg as [<- | []]; discriminate).
  split; [reach 2%nat|]. split; [|split; [wanting | vm_compute; reflexivity]].
  apply (j_turn RP 1 r2 [(1, 0); (1, 1); (0, 0)]%nat r6 17501 r7 (peer_of r6) (peer_of r7)); [| wanting | turning 71004 | apply F; reflexivity | reflexivity | wanting].
  apply (j_turn RP 1 r2 [(1, 0); (1, 1)]%nat r5 17501 r6 (peer_of r5) (peer_of r6)); [| wanting | turning 53503 | apply F; reflexivity | reflexivity | wanting].
  apply (j_turn RP 1 r2 [(1, 0)]%nat r4 17500 r5 (peer_of r4) (peer_of r5)); [| wanting | turning 36002 | apply F; reflexivity | reflexivity | wanting].
  apply (j_between RP 1 r2 [(1, 0)]%nat r3 1 EvMaintenance r4 (peer_of r3) (peer_of r4)); [| vm_compute; reflexivity | wanting | wanting | split; reflexivity].
  apply (j_turn RP 1 r2 [] r2 17001 r3 (peer_of r2) (peer_of r3)); [constructor | wanting | turning 18501 | apply F; reflexivity | reflexivity | wanting].
Qed.

(** a connection that is an hour old: its session is to be replaced, and a handshake is due at once *)
Definition RQ : params := {| c_own := c_own RP; c_hs := c_hs RP; c_limit := c_limit RP; c_methods := fun _ => [m_gmac]; c_tap := true; c_mtu := 1500; c_forward := false;
  c_verify := None; c_verify_group := [0%nat]; c_shared_iface := true; c_iface_persist := true; c_null := c_null RP; c_force_keepalive := fun _ => false;
  c_key_ok := fun _ => true; c_eph := c_eph RP; c_shared := c_shared RP; c_mac := c_mac RP |}.
Definition hour : list (N * event) := [(0%N, EvTask 1); (10%N, EvRecv (SBound 1) 5%N 20%N (pkt_resp 2 50 1)); (20%N, EvIface None 2 3); (3590000%N, EvIface None 2 3)].
Definition orc_hour : list N := (repeat 1%N 5 ++ [0; 0; 0; 1; 0; 0; 0; 0]%N)%list.
Definition rh : node := Eval vm_compute in node_of (execute RQ 1000 orc_hour [ex_conf 2 [(None, 20%N); (Some [104%N], 0%N)] false] [] hour).
Example C64_nonvacuous_refresh : reachable RQ rh /\ In (peer_of rh) (n_peers rh) /\ (exists s, p_sess (peer_of rh) = Some s /\ ss_refreshing s = true) /\ p_next_hs (peer_of rh) = Some (n_now rh).
Proof.
  split; [exists 1000%N, orc_hour, [ex_conf 2 [(None, 20%N); (Some [104%N], 0%N)] false], [], hour; vm_compute; reflexivity|]. split; [left; reflexivity|].
  split; [eexists; split; reflexivity | reflexivity].
Qed.
