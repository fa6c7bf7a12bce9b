(** What is needed for two nodes to connect to each other, written down independently of
    the functions of the node model. *)
From Verif Require Import Base BufferModel NonceModel MethodModel HandshakeModel HandshakeSpec NodeModel NodeSpec NodeKeepSpec NodeWire.
Local Open Scope Z_scope.

(** The two nodes speak the same protocol in the same mode, use the same MAC, and the key
    exchange gives the same result at both ends (C25) *)
Record partners (P Q : params) : Prop := mk_partners {
  pt_mac : c_mac P = c_mac Q;
  pt_mac_len : forall k x, length (c_mac P k x) = 32%nat;
  pt_own_P : length (c_own P) = 32%nat;
  pt_own_Q : length (c_own Q) = 32%nat;
  pt_eph_P : forall s, length (c_eph P s) = 32%nat;
  pt_eph_Q : forall s, length (c_eph Q s) = 32%nat;
  pt_protocol : hc_protocol (c_hs P) = hc_protocol (c_hs Q);
  pt_name : ~ In 0%N (hc_protocol (c_hs P));
  pt_mode : hc_mode_id (c_hs P) = hc_mode_id (c_hs Q);
  pt_mode_byte : (hc_mode_id (c_hs P) < 256)%N;
  pt_buf_P : (hc_max_buffer (c_hs P) mod 16 = 0 /\ 1232 <= hc_max_buffer (c_hs P))%nat;
  pt_buf_Q : (hc_max_buffer (c_hs Q) mod 16 = 0 /\ 1232 <= hc_max_buffer (c_hs Q))%nat;
  pt_exchange : forall s t, exists sigma key,
    c_shared P true s (c_own Q) (c_eph Q t) = Some (sigma, key) /\
    c_shared Q false t (c_own P) (c_eph P s) = Some (sigma, key)
}.

(** The configurations of [b] at the first node and [a] at the second fit together: same
    MTU, and [m] is the first method of the second node that the first node allows *)
Definition compatible (P Q : params) (b a : peer) (m : bytes) : Prop :=
  p_key b = c_own Q /\ p_key a = c_own P /\
  peer_mtu P b = peer_mtu Q a /\ (peer_mtu P b < 65536)%N /\
  Forall name_ok (c_methods Q (p_group a)) /\
  exists better worse, c_methods Q (p_group a) = better ++ m :: worse /\
    In m (c_methods P (p_group b)) /\ forall y, In y better -> ~ In y (c_methods P (p_group b)).

(** Packets from [ra] that come in on [sk] can be packets of the configured peer [p]: the
    socket is the one opened for [p] and [p] is at that address, or the socket is for everyone
    and [p] is at the address, or may be there (and packets from unknown addresses are not
    ignored altogether).  No other peer is at the address or has it in its configuration. *)
Definition hears (P : params) (n : node) (p : peer) (sk : sock) (ra : addr) : Prop :=
  In p (n_peers n) /\ p_conf p = CStatic /\
  (forall q, In q (n_peers n) -> p_id q <> p_id p -> p_addr q <> Some ra /\ ~ configured_at q ra) /\
  match sk with
  | SDyn _ _ => p_sock p = Some sk /\ p_addr p = Some ra
  | SBound _ =>
      p_addr p = Some ra \/
      ((p_remotes p = [] \/ p_floating p = true \/ exists r, In r (p_remotes p) /\ In ra (r_addrs r)) /\
       (n_floating n = true \/ c_verify P <> None))
  end.

(** There is room for the connection, and no connection was established to the peer in the
    last seconds *)
Definition welcome (P : params) (n : node) (now : Z) (p : peer) : Prop :=
  (p_state p = Established \/
   forall g m, In g (p_group p) -> c_limit P g = Some m -> (length (connected n g) < m)%nat) /\
  p_eh_to p <= now.

(** The ephemeral key [s] is not the same as another one around *)
Definition distinct_key (P : params) (n : node) (s : N) : Prop :=
  forall k, k = k_serial (n_cur n) \/ k = k_serial (n_prev n) \/ k = (k_serial (n_cur n) + 1)%N -> c_eph P k = c_eph P s -> k = s.

(** The ephemeral key [s] can be used at time [now], and was not used for a session with this
    peer (nor was a newer one) *)
Definition holds_key (n : node) (now : Z) (p : peer) (s : N) : Prop :=
  (p_serial p < s)%N /\
  ((s = k_serial (n_cur n) /\ now < k_valid_till (n_cur n)) \/
   (s = k_serial (n_prev n) /\ now < k_valid_till (n_prev n) /\ now < k_preferred_till (n_cur n))).

(** The environment lets the session be set up: the method can be initialised, and the
    interface of the peer is there or can be created *)
Definition environment_fine (n : node) (p : peer) : Prop :=
  nth 0 (n_orc n) 0%N = 0%N /\ (p_iface p = true \/ nth 2 (n_orc n) 0%N <> 0%N).

(** A usable session of one of the two ends, for the current packet format *)
Definition session_is (st : mstate) (initiator : bool) (now : Z) : Prop :=
  match st with
  | MCommon c => s_initiator c = initiator /\ s_compat c = false /\ now < s_valid_till c /\ nth 0 (s_send c) 0%N = 0%N
  | MNull c => n_initiator c = initiator /\ n_compat c = false /\ n_valid c = true
  end.

(** The peer is connected, with a new session *)
Definition connected_by (n n' : node) (p : peer) (ra : addr) (initiator : bool) (s : N) (hk key sigma m : bytes) : Prop :=
  exists p' x sid,
    In p' (n_peers n') /\ p_id p' = p_id p /\ p_key p' = p_key p /\ p_conf p' = p_conf p /\ p_state p' = Established /\
    p_addr p' = Some ra /\ p_serial p' = s /\ p_sess p' = Some x /\ ss_id x = sid /\ ss_method x = m /\
    session_is (ss_state x) initiator (n_now n') /\
    newly n n' (n_now n') (OSession (p_id p) (p_key p) CStatic initiator s hk key sigma m sid ra) /\
    (p_state p <> Established -> newly n n' (n_now n') (OUp (p_id p))).

(** What the peer is to the node is unchanged (no session was set up) *)
Definition unconnected (a a' : peer) : Prop :=
  p_id a' = p_id a /\ p_key a' = p_key a /\ p_group a' = p_group a /\ p_mtu a' = p_mtu a /\ p_conf a' = p_conf a /\
  p_state a' = p_state a /\ p_serial a' = p_serial a /\ p_iface a' = p_iface a /\ p_sess a' = p_sess a.
