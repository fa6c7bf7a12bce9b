(** What the system does with sockets and control messages, and what is expected *)
From Verif Require Import Base BufferModel MethodModel AddrModel AddrSpec SockModel.
Local Open Scope N_scope.

(** Control messages, as laid out by the system: length, level and type, data, padding to
    a multiple of 8 bytes *)
Record cmsg := mk_cmsg { m_level : N; m_type : N; m_data : bytes }.
Definition padding (n : nat) : nat := ((8 - n mod 8) mod 8)%nat.
Definition zeros (n : nat) : bytes := repeat 0 n.
Fixpoint layout (l : list cmsg) : bytes :=
  match l with
  | [] => []
  | m :: r =>
      le_bytes 8 (N.of_nat (16 + length (m_data m))) ++ le_bytes 4 (m_level m) ++ le_bytes 4 (m_type m) ++
      m_data m ++ zeros (padding (length (m_data m))) ++ layout r
  end.

(** The address a packet was sent to, and the interface *)
Inductive target : Set := T4 (ip : bytes) | T6 (ip ifindex : bytes).
Fixpoint target_of (l : list cmsg) : option target :=
  match l with
  | [] => None
  | m :: r =>
      if (m_level m =? 0) && (m_type m =? 8) then Some (T4 (firstn 4 (skipn 8 (m_data m))))
      else if (m_level m =? 41) && (m_type m =? 50) then Some (T6 (firstn 16 (m_data m)) (firstn 4 (skipn 16 (m_data m))))
      else target_of r
  end.
(** Packet information has the right size; values are those of the C types *)
Definition cmsg_ok (m : cmsg) : Prop :=
  m_level m < 2 ^ 32 /\ m_type m < 2 ^ 32 /\ wf_bytes (m_data m) /\ N.of_nat (length (m_data m)) < 2 ^ 32 /\
  (m_level m = 0 -> m_type m = 8 -> length (m_data m) = 12%nat) /\
  (m_level m = 41 -> m_type m = 50 -> length (m_data m) = 20%nat).

(** The control message that asks the system to send from an address: an IPv4 address
    (also if it was given as v4-mapped IPv6 address) as spec_dst of IP_PKTINFO; an IPv6
    address in IPV6_PKTINFO, with the interface if it is a link-local address *)
Definition send_from4 (ip : bytes) : cmsg := mk_cmsg 0 8 ([0; 0; 0; 0] ++ ip ++ [0; 0; 0; 0]).
Definition send_from6 (ip ifindex : bytes) : cmsg :=
  mk_cmsg 41 50 (ip ++ if link_local ip then ifindex else [0; 0; 0; 0]).
Definition send_from (t : target) : cmsg :=
  match t with
  | T4 ip => send_from4 ip
  | T6 ip ifindex => if bytes_eqb (firstn 12 ip) mapped_prefix then send_from4 (skipn 12 ip) else send_from6 ip ifindex
  end.
(** A single message, which needs no padding at the end *)
Definition asks (ctl : bytes) (m : cmsg) : Prop := ctl ++ zeros (padding (length (m_data m))) = layout [m].

(** Addresses the system accepts as destination and returns as sender on a socket *)
Definition accepts (k : kind) (name : saddr) : bool :=
  match k, name with
  | KInet, AInet _ _ => true
  | KInet6, AInet6 ip _ _ _ => negb (bytes_eqb (firstn 12 ip) mapped_prefix)
  | KDual, AInet6 _ _ _ _ => true
  | _, _ => false
  end.
(** The same, for addresses where v4-mapped ones are IPv4 *)
Definition reaches (k : kind) (a : saddr) : bool :=
  match k, a with
  | KInet, AInet _ _ => true
  | KInet6, AInet6 ip _ _ _ => negb (bytes_eqb (firstn 12 ip) mapped_prefix)
  | KDual, AInet _ _ => true
  | KDual, AInet6 ip _ _ _ => negb (bytes_eqb (firstn 12 ip) mapped_prefix)
  | _, _ => false
  end.
(** The address of another host: family, address and port, and on link-local addresses the interface *)
Definition same_host (a b : saddr) : Prop := fam_of a = fam_of b /\ denotes a = denotes b.

(** The kind of a socket, if the system supports IPv6 *)
Definition kind_of (s : psock) : kind :=
  match s with
  | PDyn k => k
  | PBound b => match b_fam b with FInet => KInet | FInet6 => KInet6 | FUnspec => KDual end
  end.

(** Configurations: any sequence of bind statements *)
Inductive configured : config -> Prop :=
| configured_none : configured no_binds
| configured_bind : forall c b f4 f6, configured c -> configured (config_bind b f4 f6 c).

(** Addresses tried *)
Fixpoint tried (es : list event) : list saddr :=
  match es with
  | [] => []
  | ETry a _ _ :: es => a :: tried es
  | _ :: es => tried es
  end.

(** Events as they occur: an address tried is IPv4 or IPv6, and v4-mapped ones are IPv4
    (C66, C60); a handshake is received on a socket that its sender can use; it does not
    arrive on the socket of another peer (in this case the program may end with a bug
    message, C53) *)
Definition event_ok (e : event) : Prop :=
  match e with
  | ETry a _ _ => swf a /\ reaches KDual a = true
  | EEstablish v local remote _ _ =>
      swf local /\ swf remote /\ reaches KDual remote = true /\
      match v with
      | VBound b => reaches (kind_of (PBound b)) remote = true
      | VOwn => True
      | VNone | VOther => False
      end
  | _ => True
  end.

(** All packets are sent on a socket that can be used for their destination *)
Definition sendable (o : list out) : Prop :=
  forall s name ctl, In (OSend s name ctl) o -> accepts (kind_of s) name = true.

(** No default socket is unusable for one of the addresses that are tried *)
Definition defaults_fit (c : config) (es : list event) : Prop :=
  forall a1 a2 s, In a1 (tried es) -> In a2 (tried es) -> default_sock c (fam_of a1) = Some s -> reaches (kind_of s) a2 = true.

Definition is_open (k : kind) (o : out) : bool :=
  match o, k with OOpen KInet, KInet | OOpen KInet6, KInet6 | OOpen KDual, KDual => true | _, _ => false end.
Definition is_close (k : kind) (o : out) : bool :=
  match o, k with OClose KInet, KInet | OClose KInet6, KInet6 | OClose KDual, KDual => true | _, _ => false end.
Definition holds (k : kind) (s : option psock) : nat :=
  match s, k with Some (PDyn KInet), KInet | Some (PDyn KInet6), KInet6 | Some (PDyn KDual), KDual => 1 | _, _ => 0 end.
