(** Several honest nodes and a network that delivers any datagrams at all, as long as no
    message authentication code is forged.  Written down independently of the functions of
    the node model. *)
From Verif Require Import Base BufferModel NonceModel MethodModel HandshakeModel HandshakeSpec NodeModel NodeSpec.
Local Open Scope Z_scope.

(** The handshake packet in a datagram and its records *)
Definition reads (d pkt : bytes) (h : handshake) : Prop := (exists ctl, carries d pkt ctl) /\ parse_tlvs pkt = Ok (Some h).

(** The nodes: different long-term keys, ephemeral keys that are never generated twice, keys
    and authentication codes of 32 bytes, a key exchange that gives the same result at both
    ends (C25), method names that can be configured, buffers for packets of 1232 bytes (C19) *)
Record family (Ps : nat -> params) : Prop := mk_family {
  fm_own : forall i j, c_own (Ps i) = c_own (Ps j) -> i = j;
  fm_eph : forall i s t, c_eph (Ps i) s = c_eph (Ps i) t -> s = t;
  fm_own_len : forall i, length (c_own (Ps i)) = 32%nat;
  fm_eph_len : forall i s, length (c_eph (Ps i) s) = 32%nat;
  fm_mac_len : forall i k x, length (c_mac (Ps i) k x) = 32%nat;
  fm_shared_len : forall i initiator s key hk r, c_shared (Ps i) initiator s key hk = Some r -> length key = 32%nat /\ length hk = 32%nat;
  fm_exchange : forall i j s t, c_shared (Ps i) true s (c_own (Ps j)) (c_eph (Ps j) t) = c_shared (Ps j) false t (c_own (Ps i)) (c_eph (Ps i) s);
  fm_names : forall i g m, In m (c_methods (Ps i) g) -> name_ok m;
  fm_buf : forall i, (hc_max_buffer (c_hs (Ps i)) mod 16 = 0 /\ 1232 <= hc_max_buffer (c_hs (Ps i)))%nat
}.

Definition world := nat -> node.
Definition put (w : world) (i : nat) (n : node) : world := fun j => if Nat.eqb j i then n else w j.

(** A reply composed by a node *)
Definition composed (n : node) (d : bytes) : Prop :=
  exists t pid dst m, g_data m = Ok d /\ ((exists serial, In (t, OResp pid dst serial m) (n_out n)) \/ In (t, OFin pid dst m) (n_out n)).

(** Nobody but the two nodes that share a handshake key can compute codes with it.  So when
    node [i] receives a packet with a valid code under a handshake key that it shares with
    another of the nodes, the code was computed by one of the nodes, for the same records. *)
Definition unforged (Ps : nat -> params) (w : world) (i : nat) (d : bytes) : Prop :=
  forall j initiator s hk sigma salt pkt h x,
    c_shared (Ps i) initiator s (c_own (Ps j)) hk = Some (sigma, salt) ->
    reads d pkt h -> mac_input pkt h = Some x -> value pkt h R_TLV_MAC = Some (c_mac (Ps i) salt x) ->
    exists k d' pkt' h', composed (w k) d' /\ reads d' pkt' h' /\ mac_input pkt' h' = Some x.

(** One event at one of the nodes.  Datagrams may come from anywhere; the clocks of the nodes
    are independent of each other. *)
Definition moves (Ps : nat -> params) (w : world) (i : nat) (dt : N) (ev : event) (n' : node) : Prop :=
  handles (Ps i) (w i) dt ev n' /\
  match ev with EvRecv _ _ _ d => unforged Ps w i d | _ => True end.

(** All that can happen, beginning with nodes that have not connected to anyone *)
Definition unused (n : node) : Prop :=
  forall t o, In (t, o) (n_out n) -> forall pid key conf initiator serial hk salt sigma method sid src,
    o <> OSession pid key conf initiator serial hk salt sigma method sid src.
Inductive happens (Ps : nat -> params) : world -> Prop :=
| happens_start : forall w, (forall i, reachable (Ps i) (w i) /\ unused (w i)) -> happens Ps w
| happens_step : forall w i dt ev n', happens Ps w -> moves Ps w i dt ev n' -> happens Ps (put w i n').

(** [o] is a session of a node with the parameters [P] that was begun by the other side, and
    [o'] the session of the other side, a node with the parameters [Q], that belongs to it:
    they name each other's keys, both long-term and ephemeral, and have the same handshake
    key, the same shared secret and the same method. *)
Definition paired (P Q : params) (o o' : out) : Prop :=
  exists pid conf s salt sigma method sid src pid' conf' s' sid' src',
    o = OSession pid (c_own Q) conf false s (c_eph Q s') salt sigma method sid src /\
    o' = OSession pid' (c_own P) conf' true s' (c_eph P s) salt sigma method sid' src'.

(** A response in which the methods [l] are offered to the holder of [key] *)
Definition offers (m : message) (key : bytes) (l : list bytes) : Prop :=
  exists d pkt h, g_data m = Ok d /\ reads d pkt h /\ value pkt h R_RECIPIENT_KEY = Some key /\
    value pkt h R_METHOD_LIST = Some (create_method_list l).

(** The groups of a peer in an event that begins in the state [n]: those it is in, or, if it
    is added in the event, those of peers that are not configured *)
Definition group_at (P : params) (n : node) (pid : N) (g : list nat) : Prop :=
  match find_id (n_peers n) pid with Some p => p_group p = g | None => g = c_verify_group P end.
