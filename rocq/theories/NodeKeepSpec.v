(** Why connections end, written down independently of the functions of the node
    model. *)
From Verif Require Import Base BufferModel NonceModel MethodModel HandshakeModel HandshakeSpec NodeModel NodeSpec.
Local Open Scope Z_scope.

(** The session cannot be used any more: there is none, its time is over, or (C11)
    all of its nonces are used *)
Definition session_over (now : Z) (p : peer) : Prop :=
  match p_sess p with
  | None => True
  | Some s =>
      match ss_state s with
      | MCommon c => s_valid_till c <= now \/ (nth 0 (s_send c) 0%N = 255%N /\ nth 1 (s_send c) 0%N = 255%N)
      | MNull c => n_valid c = false
      end
  end.

(** The address [a] is written into the configuration of the peer, which is not
    allowed to float *)
Definition configured_at (p : peer) (a : addr) : Prop :=
  p_floating p = false /\ exists r, In r (p_remotes p) /\ r_host r = None /\ r_addr r = a.

(** [d] proves knowledge of the secret key of [key] and of the shared secret of an
    ephemeral key of this node that is still valid and that was not used for a
    session with this peer before *)
Definition fresh_proof (P : params) (n n' : node) (d key : bytes) : Prop :=
  exists initiator hk salt sigma k,
    authenticated (c_mac P) d salt key hk (c_own P) (c_eph P (k_serial k)) /\
    c_shared P initiator (k_serial k) key hk = Some (sigma, salt) /\
    (k = n_cur n' \/ k = n_prev n') /\ n_now n' < k_valid_till k /\
    (forall q t o key' serial, In q (n_peers n) -> p_key q = key -> In (t, o) (n_out n) ->
       is_session o (p_id q) key' serial -> (serial < k_serial k)%N).
(** the key may connect: it is the key of a peer that is not disabled, or unknown
    keys are verified *)
Definition allowed_key (P : params) (n : node) (key : bytes) : Prop :=
  (exists q, In q (n_peers n) /\ p_key q = key /\ (p_conf q = CStatic \/ p_conf q = CDynamic)) \/
  (c_verify P <> None /\ forall q, In q (n_peers n) -> p_key q <> key).

(** [d] is a handshake packet with this sender key; nothing else about it is known *)
Definition names (d key : bytes) : Prop :=
  exists pkt h, (pkt = d \/ pkt = skipn 12 d) /\ parse_tlvs pkt = Ok (Some h) /\ value pkt h R_SENDER_KEY = Some key.

(** The reasons for the end of the connection to [p] *)
Definition end_reason (P : params) (n : node) (ev : event) (n' : node) (p : peer) : Prop :=
  match ev with
  | EvRecv _ _ ra d =>
      session_over (n_now n') p \/
      (* someone proves to hold the key of this peer, or an address is moved away from this peer *)
      (exists key, fresh_proof P n n' d key /\ allowed_key P n key /\
         (key = p_key p \/ (p_addr p = Some ra /\ ~ configured_at p ra))) \/
      (* a peer that is not configured has to be verified anew, and is not accepted *)
      (p_conf p = CDynamic /\ names d (p_key p) /\ p_verify_to p <= n_now n' /\ p_eh_to p <= n_now n' /\
       match c_verify P with
       | Some true => newly n n' (n_now n') (OVerdict (p_id p) (p_key p) ra false)
       | Some false => forall t a, ~ newly n n' t (OVerifyStart (p_id p) a)
       | None => False
       end)
  | EvIface _ _ _ => session_over (n_now n') p
  | EvTask q =>
      q = p_id p /\
      (session_over (n_now n') p \/ (forall t o, In (t, o) (n_out n) -> is_rx q o -> t + 90000 <= n_now n'))
  | EvReload _ | EvResetAll => True
  | EvMaintenance | EvResolved _ _ | EvVerified _ _ => False
  end.
