(** What is claimed about whole nodes, written down independently of the functions
    of the node model: in terms of configurations, datagrams, observable effects
    ([n_out], newest first) and the peer list. *)
From Verif Require Import Base BufferModel NonceModel MethodModel HandshakeModel HandshakeSpec NodeModel.
Local Open Scope Z_scope.

(** A state reached by some sequence of events *)
Definition reachable (P : params) (n : node) : Prop :=
  exists now orc static dirs evs, execute P now orc static dirs evs = Ok n.

(** Handling one event, [dt] milliseconds after the previous one *)
Definition handles (P : params) (n : node) (dt : N) (ev : event) (n' : node) : Prop :=
  step P (dt, ev) n = Ok (tt, n').
(** ... and any number of events *)
Definition later (P : params) (n n' : node) : Prop := exists evs, run P evs n = Ok (tt, n').

(** The event is not a packet from another address *)
Definition only_from (a : addr) (e : N * event) : Prop := match snd e with EvRecv _ _ ra _ => ra = a | _ => True end.

(** A new effect *)
Definition newly (n n' : node) (t : Z) (o : out) : Prop := exists l, n_out n' = l ++ n_out n /\ In (t, o) l.

(** ** Handshakes *)

(** [d] is a handshake packet with a message authentication code under [mackey],
    from the holder of the key [key] with the ephemeral key [hk] to the holder of
    [own] with the ephemeral key [eph] *)
Definition authenticated (mac : bytes -> bytes -> bytes) (d mackey key hk own eph : bytes) : Prop :=
  exists pkt h tlvs,
    (pkt = d \/ pkt = skipn 12 d) /\ parse_tlvs pkt = Ok (Some h) /\
    value pkt h R_SENDER_KEY = Some key /\ value pkt h R_SENDER_HANDSHAKE_KEY = Some hk /\
    value pkt h R_RECIPIENT_KEY = Some own /\ value pkt h R_RECIPIENT_HANDSHAKE_KEY = Some eph /\
    mac_input pkt h = Some tlvs /\ value pkt h R_TLV_MAC = Some (mac mackey tlvs).

(** Effects that show a session key was derived; the number of the local
    ephemeral key, and the peer's key *)
Definition is_session (o : out) (pid : N) (key : bytes) (serial : N) : Prop :=
  exists conf initiator hk salt sigma method sid src,
    o = OSession pid key conf initiator serial hk salt sigma method sid src.

(** ** Connections in the history: a peer is up from [OUp] to [ODown] *)
Fixpoint up (l : list (Z * out)) (pid : N) : bool :=
  match l with
  | [] => false
  | (_, OUp q) :: r => if N.eqb q pid then true else up r pid
  | (_, ODown q) :: r => if N.eqb q pid then false else up r pid
  | _ :: r => up r pid
  end.
(** [OUp] and [ODown] of a peer alternate, beginning with [OUp] *)
Fixpoint alternating (l : list (Z * out)) : Prop :=
  match l with
  | [] => True
  | (_, OUp q) :: r => up r q = false /\ alternating r
  | (_, ODown q) :: r => up r q = true /\ alternating r
  | _ :: r => alternating r
  end.

(** A packet of the peer was received, or it was connected; a packet was sent to the
    peer (or encrypting it failed), or it was connected *)
Definition is_rx (pid : N) (o : out) : Prop := o = OSeen pid \/ o = OUp pid.
Definition is_tx (pid : N) (o : out) : Prop := (exists sid nonce dst, o = OData pid sid nonce dst) \/ o = OEncFail pid \/ o = OUp pid.

(** A configured peer *)
Definition static (n : node) (pid : N) : Prop := forall p, find_id (n_peers n) pid = Some p -> p_conf p <> CDynamic.

(** ** Connection limits: the connected peers of a group *)
Definition connected (n : node) (g : nat) : list peer :=
  filter (fun p => (match p_state p with Established => true | _ => false end && if in_dec Nat.eq_dec g (p_group p) then true else false)%bool) (n_peers n).

(** ** Verification: the latest result for a peer *)
Fixpoint last_verdict (l : list (Z * out)) (pid : N) : option (Z * bytes * bool) :=
  match l with
  | [] => None
  | (t, OVerdict q key _ ok) :: r => if N.eqb q pid then Some (t, key, ok) else last_verdict r pid
  | _ :: r => last_verdict r pid
  end.

(** ** Sessions in the history *)
(** the numbers of the sessions that were created *)
Fixpoint session_ids (l : list (Z * out)) : list N :=
  match l with
  | [] => []
  | (_, OSession _ _ _ _ _ _ _ _ _ sid _) :: r => sid :: session_ids r
  | _ :: r => session_ids r
  end.
(** session and nonce of each encrypted packet that was sent *)
Fixpoint sent_nonces (l : list (Z * out)) : list (N * bytes) :=
  match l with
  | [] => []
  | (_, OData _ sid (Some nonce) _) :: r => (sid, nonce) :: sent_nonces r
  | _ :: r => sent_nonces r
  end.
(** a packet of the session was sent or delivered *)
Definition uses (o : out) (pid sid : N) : Prop :=
  (exists nonce dst, o = OData pid sid nonce dst) \/ (exists src, o = ODeliver pid sid src).
(** the session was created at [t] for a peer with this key and method *)
Definition created (l : list (Z * out)) (t : Z) (pid : N) (key method : bytes) (sid : N) : Prop :=
  exists conf initiator serial hk salt sigma src, In (t, OSession pid key conf initiator serial hk salt sigma method sid src) l.
