(** What the status socket shows *)
From Coq Require Import String.
From Verif Require Import Base BufferModel AddrModel AddrSpec FormatModel FormatSpec HexSpec LogModel LogSpec NodeModel NodeSpec StatusModel.
Local Open Scope Z_scope.

(** An object with exactly these fields, each of them once; a field of an object *)
Definition object (j : json) (ks : list String.string) : Prop :=
  exists l, j = JObj l /\ NoDup (map fst l) /\ forall k, In k (map fst l) <-> In k (map str ks).
Definition field (j : json) (k : String.string) (v : json) : Prop := exists l, j = JObj l /\ In (str k, v) l.

Definition text_or_null (s : option bytes) : json := match s with Some s => JStr s | None => JNull end.
Definition iface_name (i : option (option bytes)) : json := match i with Some s => text_or_null s | None => JNull end.

Definition shows_counter (j : json) (c : N * N) : Prop :=
  object j ["packets"; "bytes"]%string /\
  ((fst c < 2 ^ 63)%N -> field j "packets" (JInt (Z.of_N (fst c)))) /\
  ((snd c < 2 ^ 63)%N -> field j "bytes" (JInt (Z.of_N (snd c)))).
Definition shows_counters (j : json) (s : stats) : Prop :=
  object j ["rx"; "rx_reordered"; "tx"; "tx_dropped"; "tx_error"]%string /\
  forall name t, In (name, t) [("rx", STAT_RX); ("rx_reordered", STAT_RX_REORDERED); ("tx", STAT_TX); ("tx_dropped", STAT_TX_DROPPED);
                               ("tx_error", STAT_TX_ERROR)]%string ->
    exists c, field j name c /\ shows_counter c (s t).

(** Packets that would be sent to the peer now are encrypted with the method, and there is a session with it *)
Definition sends_with (P : params) (n : node) (p : peer) (m : bytes) : Prop :=
  (exists t sid, created (n_out n) t (p_id p) (p_key p) m sid) /\
  forall n' t sid nonce dst, protocol_send P (p_id p) n = Ok (tt, n') -> newly n n' t (OData (p_id p) sid nonce dst) ->
    exists t0, created (n_out n) t0 (p_id p) (p_key p) m sid.

(** The addresses that were last used by a peer: six bytes with colons between them *)
Definition spells_mac (s : bytes) (a : N) : Prop :=
  exists b0 b1 b2 b3 b4 b5 : N, (b0 < 256 /\ b1 < 256 /\ b2 < 256 /\ b3 < 256 /\ b4 < 256 /\ b5 < 256)%N /\
    a = ((((((b0 * 256) + b1) * 256 + b2) * 256 + b3) * 256 + b4) * 256 + b5)%N /\
    s = hex b0 ++ str ":" ++ hex b1 ++ str ":" ++ hex b2 ++ str ":" ++ hex b3 ++ str ":" ++ hex b4 ++ str ":" ++ hex b5.

Definition shows_connection (P : params) (x : extra) (n : node) (p : peer) (j : json) : Prop :=
  object j (["established"; "method"; "statistics"]%string ++ (if x_tap x then ["mac_addresses"]%string else [])) /\
  field j "established" (JInt (n_now n - x_since x (p_id p))) /\
  (exists m, field j "method" (JStr m) /\ sends_with P n p m) /\
  (exists s, field j "statistics" s /\ shows_counters s (x_pstats x (p_id p))) /\
  (x_tap x = true -> exists l, field j "mac_addresses" (JArr l) /\
     Forall2 (fun v e => exists s, v = JStr s /\ spells_mac s (e_addr e)) l
       (filter (fun e => match e_peer e with Some q => N.eqb q (p_id p) | None => false end) (n_eth n))).

(** The text of the peer's address, even if addresses are hidden in the log *)
Definition shown_address (x : extra) (p : peer) : bytes :=
  match p_addr p with
  | None => str "any"
  | Some a => spec_addr (x_lib x) false None (x_saddr x a) [] true
  end.

Definition shows_peer (P : params) (x : extra) (n : node) (p : peer) (j : json) : Prop :=
  object j (["name"; "address"; "connection"]%string ++ (match x_iface x with None => ["interface"]%string | Some _ => [] end)) /\
  field j "name" (text_or_null (x_name x (p_id p))) /\
  field j "address" (JStr (shown_address x p)) /\
  (x_iface x = None -> field j "interface" (iface_name (x_piface x (p_id p)))) /\
  (p_state p <> Established -> field j "connection" JNull) /\
  (p_state p = Established -> exists c, field j "connection" c /\ shows_connection P x n p c).

Definition enabled (p : peer) : Prop := p_conf p = CStatic \/ p_conf p = CDynamic.

(** The peers are the enabled ones, by their keys in lower case *)
Definition shows_status (P : params) (x : extra) (n : node) (j : json) : Prop :=
  object j (["uptime"; "statistics"; "peers"]%string ++ (match x_iface x with Some _ => ["interface"]%string | None => [] end)) /\
  field j "uptime" (JInt (n_now n - x_started x)) /\
  (x_iface x <> None -> field j "interface" (iface_name (x_iface x))) /\
  (exists s, field j "statistics" s /\ shows_counters s (x_stats x)) /\
  exists peers, field j "peers" (JObj peers) /\ NoDup (map fst peers) /\
    (forall k v, In (k, v) peers -> exists p, In p (n_peers n) /\ enabled p /\ spells k (p_key p) /\ shows_peer P x n p v) /\
    (forall p, In p (n_peers n) -> enabled p -> exists k v, In (k, v) peers /\ spells k (p_key p) /\ (forall c, In c k -> ~ is_capital c) /\
       shows_peer P x n p v).

(** The library: texts of addresses and interface names are complete and fit into INET6_ADDRSTRLEN and IFNAMSIZ bytes *)
Definition status_lib (l : lib) : Prop :=
  (forall ip, exists s, l_ntop4 l ip = Some s /\ FormatSpec.string s /\ (List.length s <= 45)%nat) /\
  (forall ip, exists s, l_ntop6 l ip = Some s /\ FormatSpec.string s /\ (List.length s <= 45)%nat) /\
  (forall i s, l_ifname l i = Some s -> FormatSpec.string s /\ (List.length s <= 15)%nat).
Definition port_ok (a : saddr) : Prop :=
  match a with
  | AInet _ p | AInet6 _ p _ _ => List.length p = 2%nat /\ wf_bytes p
  | AUnspec => True
  | AOther _ => False
  end.
Definition status_ok (x : extra) (n : node) : Prop :=
  status_lib (x_lib x) /\
  (forall a, port_ok (x_saddr x a)) /\
  (forall p, In p (n_peers n) -> List.length (p_key p) = 32%nat /\ wf_bytes (p_key p)) /\
  (forall e, In e (n_eth n) -> (e_addr e < 2 ^ 48)%N).

(** ** Writing *)
Fixpoint received (l : list effect) : bytes :=
  match l with
  | [] => []
  | FWrite s :: l => s ++ received l
  | _ :: l => received l
  end.
Definition uses_fd (e : effect) : Prop := match e with FWrite _ => True | _ => False end.
Definition total (ws : list wres) : nat := fold_right (fun w t => (match w with Wrote k => k | WError => 0 end + t)%nat) 0%nat ws.
Definition ends (e : effect) (l : list effect) : nat :=
  List.length (filter (fun f => match e, f with FClose, FClose | FPutJson, FPutJson | FFreeArg, FFreeArg => true | _, _ => false end) l).
