(** Concrete configurations and event sequences, used to show that hypotheses of
    theorems about nodes are met and as counterexamples. *)
From Verif Require Import Base BufferModel NonceModel MethodModel HandshakeModel NodeModel.
Local Open Scope Z_scope.

Definition k32 (x : N) : bytes := repeat x 32.
Definition m_gmac : bytes := [103; 109; 97; 99]%N.
Definition m_null : bytes := [110; 117; 108; 108]%N.

(** A toy message authentication code: sums in two ways, repeated *)
Definition toy_mac (key data : bytes) : bytes :=
  let a := fold_left (fun s b => (s * 3 + b) mod 256)%N (key ++ data) 7%N in
  let b := fold_left (fun s b => (s * 5 + b) mod 256)%N (key ++ data) 1%N in
  repeat a 16 ++ repeat b 16.
(** A toy key exchange: combines the keys of both sides *)
Definition toy_shared (own : N) (initiator : bool) (serial : N) (key hk : bytes) : option (bytes * bytes) :=
  let a := nth 0 key 0%N in
  let x := nth 0 hk 0%N in
  Some (k32 ((own + a) mod 256)%N, k32 ((own + a + x + 100 + serial) mod 256)%N).

Definition ex_hs : hs_conf := mk_hs_conf [101; 99]%N [118; 50]%N 0 2048.

(** Node 1 of group 0; group 1 is a child of group 0 *)
Definition ex_params (tap : bool) (limit : option nat) (verify : option bool) : params :=
  {| c_own := k32 1; c_hs := ex_hs;
     c_limit := fun g => match g with 0%nat => limit | _ => None end;
     c_methods := fun _ => [m_null; m_gmac];
     c_tap := tap; c_mtu := 1500; c_forward := false;
     c_verify := verify; c_verify_group := [0%nat];
     c_shared_iface := tap; c_iface_persist := true;
     c_null := fun m => bytes_eqb m m_null;
     c_force_keepalive := fun _ => false;
     c_key_ok := fun _ => true;
     c_eph := fun s => k32 (100 + s)%N;
     c_shared := toy_shared 1;
     c_mac := toy_mac |}.

Definition ex_conf (key : N) (remotes : list (option bytes * addr)) (floating : bool) : pconf :=
  mk_pconf (k32 key) [0%nat] false remotes floating None 0.

Definition get_pkt (r : res bytes) : bytes := match r with Ok p => control_header ++ p | _ => [] end.

(** Packets of the node with key [x] and ephemeral key [e] for node 1 *)
Definition pkt_init (x e : N) : bytes := get_pkt (build_init ex_hs (k32 x) (Some (k32 1)) (k32 e)).
(** handshake response and finish; [serial] is the number of node 1's ephemeral key *)
Definition pkt_resp (x e serial : N) : bytes :=
  get_pkt (build_reply ex_hs 2 1500 None [m_null; m_gmac] (k32 x) (k32 1) (k32 e) (k32 (100 + serial)%N)
             (toy_mac (match toy_shared 1 true serial (k32 x) (k32 e) with Some (_, k) => k | None => [] end))).
Definition pkt_fin (x e serial : N) (m : bytes) : bytes :=
  get_pkt (build_reply ex_hs 3 1500 (Some m) [] (k32 x) (k32 1) (k32 e) (k32 (100 + serial)%N)
             (toy_mac (match toy_shared 1 false serial (k32 x) (k32 e) with Some (_, k) => k | None => [] end))).
Definition pkt_data (nonce : bytes) : bytes := [2; 0]%N ++ nonce ++ repeat 0%N 24.

Definition outs (r : res node) : list (Z * out) := match r with Ok n => rev (n_out n) | _ => [] end.
Definition ends (r : res node) : res (list (N * pstate * cstate * option sock * option addr)) :=
  match r with
  | Ok n => Ok (map (fun p => (p_id p, p_state p, p_conf p, p_sock p, p_addr p)) (n_peers n))
  | Bug => Bug | Fatal => Fatal | UB => UB
  end.

(** Some executions of node 1 *)
Definition P_tap : params := ex_params true (Some 1%nat) None.
Definition P_sync : params := ex_params true None (Some true).
Definition P_async : params := ex_params true None (Some false).
Definition from (a : N) (d : bytes) : event := EvRecv (SBound 0) 5%N a d.
(** the floating peer with key 9 connects from address 7; a frame is sent to it, and one is received *)
Definition static9 : list pconf := [ex_conf 9 [] true].
Definition orc9 : list N := [0; 0; 0; 0; 0; 0; 0; 1; 1; 1; 2; 3]%N.
Definition evs9 : list (N * event) :=
  [(0%N, from 7 (pkt_init 9 50)); (10%N, from 7 (pkt_fin 9 50 1 m_gmac)); (20%N, EvIface None 2 3); (5%N, from 7 (pkt_data [0; 0; 0; 0; 0; 3]%N))].
(** an unknown peer is verified (the command accepts it) and connects *)
Definition evs_dyn : list (N * event) := [(0%N, from 7 (pkt_init 9 50)); (10%N, from 7 (pkt_fin 9 50 1 m_gmac))].
