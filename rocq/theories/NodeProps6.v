(** Theorems about nodes, part 6: two nodes that are configured for each other connect and
    agree on the session.  [Print Assumptions] follows each one. *)
From Verif Require Import Base BufferModel NonceModel MethodModel HandshakeModel HandshakeSpec NodeModel NodeSpec NodeKeepSpec NodeExamples NodeWire NodeConnectSpec NodeConnect4.
From Coq Require Import Lia.
Local Open Scope Z_scope.

(** C59: the initial handshake of a configured peer is answered, which sets up no session
    and leaves the peer able to finish the handshake for more than 15 seconds *)
Theorem C59_answered : forall P Q n dt a sk la ra recipient s d, partners P Q -> reachable Q n -> hears Q n a sk ra -> welcome Q n (n_now n + Z.of_N dt) a ->
  p_key a = c_own P -> (recipient = None \/ recipient = Some (c_own Q)) -> wire_init P recipient s = Ok d ->
  (p_lhr_to a <= n_now n + Z.of_N dt \/ p_lhr_addr a <> Some ra) ->
  exists n' a' t sigma key, handles Q n dt (EvRecv sk la ra d) n' /\ n_now n' = n_now n + Z.of_N dt /\
    c_shared Q false t (c_own P) (c_eph P s) = Some (sigma, key) /\
    newly n n' (n_now n') (OResp (p_id a) ra t (mk_msg (c_eph P s) key (wire_resp Q a t (c_eph P s) key))) /\
    t = k_serial (n_cur n') /\ n_now n' + 15000 < k_valid_till (n_cur n') /\
    unconnected a a' /\ hears Q n' a' sk ra /\ welcome Q n' (n_now n') a'.
Proof. exact answered. Qed.
Print Assumptions C59_answered.

(** a response to an ephemeral key that is still held connects the initiator, which sends
    the last packet *)
Theorem C59_initiator_connects : forall P Q n dt b a sk la ra s t key sigma m d, partners P Q -> compatible P Q b a m -> reachable P n ->
  hears P n b sk ra -> welcome P n (n_now n + Z.of_N dt) b -> holds_key n (n_now n + Z.of_N dt) b s -> distinct_key P n s -> environment_fine n b ->
  c_shared P true s (c_own Q) (c_eph Q t) = Some (sigma, key) -> wire_resp Q a t (c_eph P s) key = Ok d ->
  exists n', handles P n dt (EvRecv sk la ra d) n' /\ n_now n' = n_now n + Z.of_N dt /\
    connected_by n n' b ra true s (c_eph Q t) key sigma m /\ newly n n' (n_now n') (OFin (p_id b) ra (mk_msg (c_eph Q t) key (wire_fin P b s (c_eph Q t) key m))).
Proof. exact initiator_connects. Qed.
Print Assumptions C59_initiator_connects.

(** which connects the responder *)
Theorem C59_responder_connects : forall P Q n dt b a sk la ra s t key sigma m d, partners P Q -> compatible P Q b a m -> reachable Q n ->
  hears Q n a sk ra -> welcome Q n (n_now n + Z.of_N dt) a -> holds_key n (n_now n + Z.of_N dt) a t -> distinct_key Q n t -> environment_fine n a ->
  c_shared Q false t (c_own P) (c_eph P s) = Some (sigma, key) -> wire_fin P b s (c_eph Q t) key m = Ok d ->
  exists n', handles Q n dt (EvRecv sk la ra d) n' /\ n_now n' = n_now n + Z.of_N dt /\ connected_by n n' a ra false t (c_eph P s) key sigma m.
Proof. exact responder_connects. Qed.
Print Assumptions C59_responder_connects.

(** all together: both ends are connected with the same keys and the same method, one of
    them as the initiator *)
Theorem C59_connect : forall P Q, partners P Q -> forall nA nB b a m s skA laA raA skB laB raB dt1 dt2 dt3 recipient d1,
  reachable P nA -> reachable Q nB -> compatible P Q b a m ->
  hears P nA b skA raA -> hears Q nB a skB raB ->
  welcome Q nB (n_now nB + Z.of_N dt1) a -> welcome P nA (n_now nA + Z.of_N dt2) b ->
  holds_key nA (n_now nA + Z.of_N dt2) b s -> distinct_key P nA s -> environment_fine nA b ->
  (p_lhr_to a <= n_now nB + Z.of_N dt1 \/ p_lhr_addr a <> Some raB) -> (dt3 <= 15000)%N ->
  (recipient = None \/ recipient = Some (c_own Q)) -> wire_init P recipient s = Ok d1 ->
  exists nB1 a1 t key sigma r2,
    handles Q nB dt1 (EvRecv skB laB raB d1) nB1 /\ newly nB nB1 (n_now nB1) (OResp (p_id a) raB t (mk_msg (c_eph P s) key r2)) /\ unconnected a a1 /\
    forall d2, r2 = Ok d2 ->
    exists nA1 r3,
      handles P nA dt2 (EvRecv skA laA raA d2) nA1 /\ newly nA nA1 (n_now nA1) (OFin (p_id b) raA (mk_msg (c_eph Q t) key r3)) /\
      connected_by nA nA1 b raA true s (c_eph Q t) key sigma m /\
      forall d3, r3 = Ok d3 -> (p_serial a < t)%N -> distinct_key Q nB1 t -> environment_fine nB1 a ->
      exists nB2, handles Q nB1 dt3 (EvRecv skB laB raB d3) nB2 /\ connected_by nB1 nB2 a1 raB false t (c_eph P s) key sigma m.
Proof. exact handshake_connects. Qed.
Print Assumptions C59_connect.

(** ** Two nodes: the first one knows the address of the second and starts the handshake *)
Definition meet_shared (own base : N) (initiator : bool) (serial : N) (key hk : bytes) : option (bytes * bytes) :=
  Some (k32 ((own + nth 0 key 0) mod 256)%N, k32 ((nth 0 hk 0 + (base + serial)) mod 256)%N).
Definition meet_params (own base : N) (methods : list bytes) : params :=
  {| c_own := k32 own; c_hs := ex_hs; c_limit := fun _ => Some 1%nat; c_methods := fun _ => methods;
     c_tap := true; c_mtu := 1500; c_forward := false; c_verify := None; c_verify_group := [0%nat];
     c_shared_iface := true; c_iface_persist := true; c_null := fun m => bytes_eqb m m_null; c_force_keepalive := fun _ => false;
     c_key_ok := fun _ => true; c_eph := fun s => k32 (base + s)%N; c_shared := meet_shared own base; c_mac := toy_mac |}.
Definition PA : params := meet_params 1 100 [m_null; m_gmac].
Definition PB : params := meet_params 2 200 [m_gmac; m_null].
Definition node_of (r : res node) : node := match r with Ok n => n | _ => empty_node 0 [] end.
Definition confA : list pconf := [ex_conf 2 [(None, 20%N)] false].
Definition confB : list pconf := [ex_conf 1 [] true].
Definition nA : node := node_of (execute PA 1000 [0; 0; 0; 1]%N confA [] [(0%N, EvTask 1)]).
Definition nB : node := node_of (execute PB 5000 [] confB [] []).
Definition the_peer (n : node) : peer := hd (new_peer 0 (ex_conf 0 [] false) CNew 0) (n_peers n).
Definition data_of (r : res bytes) : bytes := match r with Ok d => d | _ => [] end.
Definition d1 : bytes := data_of (wire_init PA (Some (k32 2)) 1).
Definition shared : bytes := k32 46.
Definition d2 : bytes := data_of (wire_resp PB (the_peer nB) 1 (k32 101) shared).
Definition d3 : bytes := data_of (wire_fin PA (the_peer nA) 1 (k32 201) shared m_gmac).
Definition evB1 : event := EvRecv (SBound 0) 20%N 10%N d1.
Definition nB1 : node := node_of (match step PB (30%N, evB1) nB with Ok (_, n) => Ok n | _ => Bug end).

Lemma ex_partners : partners PA PB.
Proof.
  apply mk_partners; [reflexivity | intros k x; cbn [c_mac PA meet_params]; unfold toy_mac; rewrite app_length, !repeat_length; reflexivity
    | reflexivity | reflexivity | intros s; apply repeat_length | intros s; apply repeat_length | reflexivity
    | intros [X|[X|[]]]; discriminate | reflexivity | reflexivity | split; [reflexivity | cbn; lia] | split; [reflexivity | cbn; lia] |].
  intros s t. unfold PA, PB, meet_params, meet_shared, c_shared, c_own, c_eph. eexists _, _. split; [reflexivity|].
  replace (nth 0 (k32 1) 0%N) with 1%N by reflexivity. replace (nth 0 (k32 2) 0%N) with 2%N by reflexivity.
  replace (nth 0 (k32 (100 + s)) 0%N) with (100 + s)%N by reflexivity. replace (nth 0 (k32 (200 + t)) 0%N) with (200 + t)%N by reflexivity.
  replace (2 + 1)%N with (1 + 2)%N by reflexivity. rewrite (N.add_comm (100 + s) (200 + t)). reflexivity.
Qed.

Example C59_nonvacuous :
  partners PA PB /\ reachable PA nA /\ reachable PB nB /\ compatible PA PB (the_peer nA) (the_peer nB) m_gmac /\
  In (1000, OInit (Some 1%N) 20%N) (n_out nA) /\
  hears PA nA (the_peer nA) (SDyn 1 0) 20%N /\ hears PB nB (the_peer nB) (SBound 0) 10%N /\
  welcome PB nB (n_now nB + 30) (the_peer nB) /\ welcome PA nA (n_now nA + 60) (the_peer nA) /\
  holds_key nA (n_now nA + 60) (the_peer nA) 1 /\ distinct_key PA nA 1 /\ environment_fine nA (the_peer nA) /\
  p_lhr_to (the_peer nB) <= n_now nB + 30 /\
  wire_init PA (Some (c_own PB)) 1 = Ok d1 /\ handles PB nB 30 evB1 nB1 /\
  wire_resp PB (the_peer nB) 1 (c_eph PA 1) shared = Ok d2 /\ wire_fin PA (the_peer nA) 1 (c_eph PB 1) shared m_gmac = Ok d3 /\
  (p_serial (the_peer nB) < 1)%N /\ distinct_key PB nB1 1 /\ environment_fine nB1 (the_peer nB) /\
  c_shared PA true 1 (c_own PB) (c_eph PB 1) = Some (k32 3, shared).
Proof.
  split; [exact ex_partners|].
  split; [exists 1000%N, [0; 0; 0; 1]%N, confA, [], [(0%N, EvTask 1)]; vm_compute; reflexivity|].
  split; [exists 5000%N, [], confB, [], []; vm_compute; reflexivity|].
  split.
  { repeat (split; [vm_compute; reflexivity|]). split.
    - repeat constructor; vm_compute; try discriminate; intros X; repeat destruct X as [X|X]; try discriminate X; exact X.
    - exists [], [m_null]. split; [reflexivity|]. split; [right; left; reflexivity | intros y []]. }
  split; [vm_compute; left; reflexivity|].
  assert (HA : n_peers nA = [the_peer nA]) by (vm_compute; reflexivity). assert (HB : n_peers nB = [the_peer nB]) by (vm_compute; reflexivity).
  split.
  { unfold hears. rewrite HA. split; [left; reflexivity|]. split; [vm_compute; reflexivity|]. split; [|split; vm_compute; reflexivity].
    intros q [<-|[]] H. exfalso. apply H. reflexivity. }
  split.
  { unfold hears. rewrite HB. split; [left; reflexivity|]. split; [vm_compute; reflexivity|]. split; [intros q [<-|[]] H; exfalso; apply H; reflexivity|].
    right. split; left; vm_compute; reflexivity. }
  split. { split; [|vm_compute; discriminate]. right. intros g m _ H. injection H as <-. vm_compute. destruct g as [|g]; lia. }
  split. { split; [|vm_compute; discriminate]. right. intros g m _ H. injection H as <-. vm_compute. destruct g as [|g]; lia. }
  split. { split; [vm_compute; reflexivity|]. left. split; vm_compute; reflexivity. }
  split. { intros k [-> | [-> | ->]] H; vm_compute in H; first [reflexivity | discriminate H]. }
  split. { split; [vm_compute; reflexivity | left; vm_compute; reflexivity]. }
  split; [vm_compute; discriminate|]. repeat (split; [vm_compute; reflexivity|]).
  split. { intros k [-> | [-> | ->]] H; vm_compute in H; first [reflexivity | discriminate H]. }
  split; [split; [vm_compute; reflexivity | left; vm_compute; reflexivity]|]. vm_compute. reflexivity.
Qed.
