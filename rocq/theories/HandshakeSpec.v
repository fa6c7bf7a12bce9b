(** The handshake wire format, written down independently of the code that
    composes and parses it. *)
From Verif Require Import Base BufferModel MethodModel HandshakeModel.

(** A record is its 16-bit type and length, little endian, and its value. *)
Definition enc1 (r : nat * bytes) : bytes :=
  le_bytes 2 (N.of_nat (fst r)) ++ le_bytes 2 (N.of_nat (length (snd r))) ++ snd r.
Definition area (l : list (nat * bytes)) : bytes := flat_map enc1 l.

(** A packet: type 1, reserved byte, length of the records (big endian). *)
Definition packet (l : list (nat * bytes)) : bytes :=
  [1; 0]%N ++ be_bytes 2 (N.of_nat (length (area l))) ++ area l.

Definition encodable (l : list (nat * bytes)) : Prop :=
  Forall (fun r => (N.of_nat (fst r) < 65536)%N /\ (N.of_nat (length (snd r)) < 65536)%N) l /\
  (N.of_nat (length (area l)) < 65536)%N.

(** The value the last record of a type carries. *)
Fixpoint find_last (t : nat) (l : list (nat * bytes)) : option bytes :=
  match l with
  | [] => None
  | (t', v) :: r =>
      match find_last t r with
      | Some x => Some x
      | None => if Nat.eqb t t' then Some v else None
      end
  end.

(** Composing a list of records with the functions of handshake.h. *)
Fixpoint compose (cap : nat) (pkt : bytes) (l : list (nat * bytes)) : res bytes :=
  match l with
  | [] => Ok pkt
  | (t, v) :: r => do p <- hs_add cap pkt t v; compose cap p r
  end.

(** What the receiver sees as the value of a record. *)
Definition value (pkt : bytes) (h : handshake) (t : nat) : option bytes :=
  match h_records h t with Some (o, n) => Some (slice pkt o n) | None => None end.

(** All records lie inside the TLV data, which lies inside the packet. *)
Definition records_inside (pkt : bytes) (h : handshake) : Prop :=
  4 + h_tlv_len h <= length pkt /\
  forall t o n, h_records h t = Some (o, n) -> t < RECORD_MAX /\ 4 <= o /\ o + n <= 4 + h_tlv_len h.

(** The contents of the messages of the protocol. *)
Definition common_records (c : hs_conf) (type mtu : N) (method : option bytes) (methods : list bytes)
    : list (nat * bytes) :=
  [(R_TYPE, le_bytes 1 type); (R_FLAGS, [1]%N); (R_MODE, le_bytes 1 (hc_mode_id c))]
  ++ (if N.eqb mtu 0 then [] else [(R_MTU, le_bytes 2 mtu)])
  ++ [(R_VERSION_NAME, hc_version c); (R_PROTOCOL_NAME, hc_protocol c)]
  ++ match method, methods with Some m, [] => [(R_METHOD_NAME, m)] | _, _ => [] end
  ++ match methods with [] => [] | _ => [(R_METHOD_LIST, create_method_list methods)] end.

Definition init_records (c : hs_conf) (sender : bytes) (recipient : option bytes) (eph : bytes) :=
  common_records c 1 0 None []
  ++ [(R_SENDER_KEY, sender)]
  ++ match recipient with Some k => [(R_RECIPIENT_KEY, k)] | None => [] end
  ++ [(R_SENDER_HANDSHAKE_KEY, eph)].

Definition reply_records (c : hs_conf) (type mtu : N) (method : option bytes) (methods : list bytes)
    (sender recipient eph reph tag : bytes) :=
  common_records c type mtu method methods
  ++ [(R_REPLY_CODE, [0]%N); (R_SENDER_KEY, sender); (R_RECIPIENT_KEY, recipient);
      (R_SENDER_HANDSHAKE_KEY, eph); (R_RECIPIENT_HANDSHAKE_KEY, reph); (R_TLV_MAC, tag)].

(** What the receiver of a reply computes the MAC over: the TLV data with the
    MAC record overwritten by zeros (memset in [finish_handshake] and
    [handle_finish_handshake]). *)
Definition zero_mac : bytes := repeat 0%N KEY_LEN.
Definition mac_input (pkt : bytes) (h : handshake) : option bytes :=
  match h_records h R_TLV_MAC with
  | Some (o, n) => Some (slice (overwrite pkt o zero_mac) 4 (h_tlv_len h))
  | None => None
  end.

(** Names that can be configured: not empty, no zero byte. *)
Definition name_ok (m : bytes) : Prop := m <> [] /\ ~ In 0%N m.

(** The method a responder prefers: the first of its own list that the
    initiator also has. *)
Definition preferred (responder initiator : list bytes) : option bytes :=
  find (fun m => contains initiator m) responder.

(** What a node does with a handshake packet, as a function of the values of
    its records only. *)
Inductive verdict :=
| VIgnore
| VError (code detail : N)
| VProtocol (type flags : N).

Definition flags_of (rv : nat -> option bytes) : N :=
  match rv R_FLAGS with Some (f :: _) => f | _ => 0%N end.

Definition spec_verdict (c : hs_conf) (ctl : bool) (rv : nat -> option bytes) : verdict :=
  match rv R_TYPE with
  | Some [type] =>
      let flags := flags_of rv in
      if (negb ctl && N.odd flags)%bool then VIgnore
      else if match rv R_FLAGS with Some f => negb (existsb (bytes_eqb f) [[0]; [1]])%N | None => false end
      then VError 2 3
      else if match rv R_PROTOCOL_NAME with
              | Some p => negb (bytes_eqb (c_str p) (hc_protocol c))
              | None => false end
      then VError 2 5
      else if match rv R_MODE with Some m => negb (bytes_eqb m [hc_mode_id c]) | None => false end
      then VError 2 4
      else if (type <=? 1)%N then VProtocol type flags
      else match rv R_REPLY_CODE with
           | Some rc => if bytes_eqb rc [0]%N then VProtocol type flags else VIgnore
           | None => VIgnore
           end
  | _ => VIgnore
  end.

Definition verdict_of (r : hs_outcome) : verdict :=
  match r with
  | HIgnore => VIgnore
  | HError code detail _ => VError code detail
  | HProtocol h => VProtocol (h_type h) (h_flags h)
  end.

Definition outcome_records (r : hs_outcome) : option (nat -> option record) :=
  match r with HIgnore => None | HError _ _ h | HProtocol h => Some (h_records h) end.

(** The packet in a received datagram: all of it, or what follows a control
    header (12 bytes, type 200, version 3) *)
Inductive carries : bytes -> bytes -> bool -> Prop :=
| carries_plain t r : t <> 200%N -> carries (t :: r) (t :: r) false
| carries_control v h t r : N.land v 15 = 3%N -> length h = 10 -> carries (200%N :: v :: h ++ t :: r) (t :: r) true.
