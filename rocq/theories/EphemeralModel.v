(** The handshake secrets in memory: the ephemeral key pairs and the handshake
    cache of the peers.  src/protocols/ec25519_fhmqvc/state.c and handshake.c.

    Which peer a packet belongs to, and the checks whose outcome does not depend on
    keys, are given with the packet (they are in NodeModel.v); the computations are
    those of KexModel.v.  Local variables (on the stack) are not modelled. *)
From Verif Require Import Base BufferModel MethodModel KexModel.
Local Open Scope Z_scope.

Definition zero32 : bytes := repeat 0%N 32.

(** [handshake_key_t], handshake.h L25-38.  The serial number is not bounded: the
    64 bits would suffice for 2^64 times 15 seconds. *)
Record hkey := mk_hkey { hk_serial : N; hk_preferred : Z; hk_valid : Z; hk_pair : keypair }.

(** The part of [fastd_protocol_peer_state_t] (ec25519_fhmqvc.h L70-84) and of
    [fastd_peer_t] that matters here *)
Record pproto (K : kex) := mk_pproto {
  pp_key : peerkey K;        (* peer->key *)
  pp_last : N;               (* last_serial *)
  pp_eh_to : Z;              (* peer->establish_handshake_timeout *)
  pp_hs : N;                 (* last_handshake_serial *)
  pp_hk : bytes;             (* peer_handshake_key *)
  pp_sigma : bytes;
  pp_shared : bytes          (* shared_handshake_key *)
}.
Arguments mk_pproto {K}. Arguments pp_key {K}. Arguments pp_last {K}. Arguments pp_eh_to {K}.
Arguments pp_hs {K}. Arguments pp_hk {K}. Arguments pp_sigma {K}. Arguments pp_shared {K}.

(** What can be seen: a key pair is created; its public key is sent in an initial
    handshake; it is used to answer one ([late]: after an asynchronous
    verification); it is used to check an answer; a session is derived from it. *)
Inductive kev :=
| Created (now : Z) (k : keypair)
| Offered (now : Z) (k : keypair)
| Responded (now : Z) (pid : N) (late : bool) (k : keypair) (hk : bytes)
| Used (now : Z) (pid : N) (k : keypair) (hk : bytes)
| Established (now : Z) (pid : N) (initiator : bool) (k : keypair) (hk sigma salt : bytes).

(** How [establish] goes on, handshake.c L120-141 *)
Inductive est := ClaimFails | SessionFails | UpFails | Succeeds.

(** A handshake packet after [match_sender_key] and the checks of
    [handshake_handle] L649-686 *)
Record hspkt := mk_hspkt {
  hp_peer : option N;        (* the peer, if the packet is not ignored before L679 for another reason *)
  hp_verified : option bool; (* the result of [handle_dynamic]; [None]: a verification was started, true for peers that are not dynamic *)
  hp_type : N;
  hp_limited : bool;         (* L692: repeated handshake *)
  hp_hk : bytes;             (* RECORD_SENDER_HANDSHAKE_KEY *)
  hp_rhk : bytes;            (* RECORD_RECIPIENT_HANDSHAKE_KEY, if there and the other fields too; else [] *)
  hp_method : bool;          (* a method was found *)
  hp_mac : bytes -> bool;    (* does the MAC verify with this key? *)
  hp_est : est
}.

Inductive kop (K : kex) :=
| KInit (now : Z) (rnd : bytes)
| KHandle (now : Z) (rnd : bytes) (h : hspkt)
| KVerifyReturn (now : Z) (pid : N) (hk : bytes)
| KAdd (now : Z) (pid : N) (key : peerkey K) (dynamic : bool)
| KReset (now : Z) (pid : N)
| KDelete (now : Z) (pid : N).
Arguments KInit {K}. Arguments KHandle {K}. Arguments KVerifyReturn {K}. Arguments KAdd {K}.
Arguments KReset {K}. Arguments KDelete {K}.

(** [ctx.protocol_state] (the previous and the newest key), the peers, and the
    verifications that run *)
Record kst (K : kex) := mk_kst {
  k_keys : option (hkey * hkey);
  k_peers : list (N * pproto K);
  k_verifying : list (N * bytes)
}.
Arguments mk_kst {K}. Arguments k_keys {K}. Arguments k_peers {K}. Arguments k_verifying {K}.

Section Ephemeral.
Variable K : kex.
Variable own : keypair. (* conf.protocol_config->key *)

Fixpoint find_pp (l : list (N * pproto K)) (i : N) : option (pproto K) :=
  match l with [] => None | (j, p) :: r => if N.eqb i j then Some p else find_pp r i end.
Fixpoint put_pp (l : list (N * pproto K)) (i : N) (p : pproto K) : list (N * pproto K) :=
  match l with [] => [] | (j, q) :: r => if N.eqb i j then (j, p) :: r else (j, q) :: put_pp r i p end.
Definition del_pp (l : list (N * pproto K)) (i : N) : list (N * pproto K) :=
  filter (fun '(j, _) => negb (N.eqb i j)) l.
Definition set_pp (s : kst K) (i : N) (p : pproto K) : kst K := mk_kst (k_keys s) (put_pp (k_peers s) i p) (k_verifying s).

(** [init_protocol_state], state.c L19-26: zeroed memory *)
Definition first_key (now : Z) : hkey := mk_hkey 0 now 0 (mk_keypair zero32 zero32).
Definition keys_of (now : Z) (s : kst K) : hkey * hkey :=
  match k_keys s with Some k => k | None => (first_key now, first_key now) end.

(** [fastd_protocol_ec25519_fhmqvc_maintenance], state.c L47-62 *)
Definition maintenance (now : Z) (rnd : bytes) (s : kst K) : res ((hkey * hkey) * kst K * list kev) :=
  let '(prev, cur) := keys_of now s in
  if timed_out now (hk_preferred cur) then
    do k <- new_handshake_key K rnd;
    let ks := (cur, mk_hkey (hk_serial cur + 1) (now + 15000) (now + 30000) k) in
    Ok (ks, mk_kst (Some ks) (k_peers s) (k_verifying s), [Created now k])
  else Ok ((prev, cur), mk_kst (Some (prev, cur)) (k_peers s) (k_verifying s), []).

(** [update_shared_handshake_key], handshake.c L253-269 *)
Definition update_shared (hk : hkey) (p : pproto K) (peer_hk : bytes) : option (pproto K) :=
  if N.eqb (pp_hs p) (hk_serial hk) && bytes_eqb (pp_hk p) peer_hk then Some p
  else
    match make_shared K false own (hk_pair hk) (pp_key p) peer_hk with
    | None => None
    | Some (sigma, shared) => Some (mk_pproto (pp_key p) (pp_last p) (pp_eh_to p) (hk_serial hk) peer_hk sigma shared)
    end.

(** [clear_shared_handshake_key], handshake.c L272-278 *)
Definition clear_shared (p : pproto K) : pproto K :=
  mk_pproto (pp_key p) (pp_last p) (pp_eh_to p) 0 zero32 zero32 zero32.

(** [respond_handshake], handshake.c L281-310: always with the newest key *)
Definition respond (now : Z) (late : bool) (cur : hkey) (pid : N) (p : pproto K) (peer_hk : bytes) (s : kst K) : kst K * list kev :=
  match update_shared cur p peer_hk with
  | None => (s, [])
  | Some p' => (set_pp s pid p', [Responded now pid late (hk_pair cur) peer_hk])
  end.

(** [establish], handshake.c L111-153; [new_session] sets [last_serial] if the
    session could be created.  [fastd_peer_reset] of a failing one deletes the
    sessions only (state.c L84-91). *)
Definition establish (now : Z) (pid : N) (initiator : bool) (hk : hkey) (peer_hk sigma salt : bytes) (e : est) (p : pproto K) : pproto K * list kev :=
  if (hk_serial hk <=? pp_last p)%N then (p, [])
  else
    let p' := mk_pproto (pp_key p) (hk_serial hk) (pp_eh_to p) (pp_hs p) (pp_hk p) (pp_sigma p) (pp_shared p) in
    match e with
    | ClaimFails => (p, [])
    | SessionFails => (p, [])
    | UpFails => (p', [])
    | Succeeds =>
        (mk_pproto (pp_key p') (pp_last p') (now + 15000) (pp_hs p') (pp_hk p') (pp_sigma p') (pp_shared p'),
         [Established now pid initiator (hk_pair hk) peer_hk sigma salt])
    end.

(** [finish_handshake], handshake.c L312-348 *)
Definition finish (now : Z) (pid : N) (hk : hkey) (h : hspkt) (p : pproto K) (s : kst K) : kst K * list kev :=
  if negb (hp_method h) then (s, [])
  else
    match make_shared K true own (hk_pair hk) (pp_key p) (hp_hk h) with
    | None => (s, [])
    | Some (sigma, shared) =>
        if hp_mac h shared then
          let '(p', ev) := establish now pid true hk (hp_hk h) sigma shared (hp_est h) p in
          (set_pp s pid p', Used now pid (hk_pair hk) (hp_hk h) :: ev)
        else (s, [Used now pid (hk_pair hk) (hp_hk h)])
    end.

(** [handle_finish_handshake], handshake.c L366-400: after [establish] the cache is
    cleared, after a wrong MAC it is not *)
Definition handle_finish (now : Z) (pid : N) (hk : hkey) (h : hspkt) (p : pproto K) (s : kst K) : kst K * list kev :=
  if negb (hp_method h) then (s, [])
  else
    match update_shared hk p (hp_hk h) with
    | None => (s, [])
    | Some p1 =>
        if hp_mac h (pp_shared p1) then
          let '(p', ev) := establish now pid false hk (hp_hk h) (pp_sigma p1) (pp_shared p1) (hp_est h) p1 in
          (set_pp s pid (clear_shared p'), Used now pid (hk_pair hk) (hp_hk h) :: ev)
        else (set_pp s pid p1, [Used now pid (hk_pair hk) (hp_hk h)])
    end.

(** The choice of the key for an answer, handshake.c L722-744 *)
Definition choose (now : Z) (prev cur : hkey) (rhk : bytes) : option hkey :=
  if negb (timed_out now (hk_valid cur)) && bytes_eqb (kp_public (hk_pair cur)) rhk then Some cur
  else if negb (timed_out now (hk_valid prev)) && bytes_eqb (kp_public (hk_pair prev)) rhk then Some prev
  else None.

(** [fastd_protocol_ec25519_fhmqvc_handshake_handle], handshake.c L623-770 *)
Definition handshake_handle (now : Z) (rnd : bytes) (h : hspkt) (s : kst K) : res (kst K * list kev) :=
  do r <- maintenance now rnd s;
  let '(prev, cur, s, ev) := r in
  match hp_peer h with
  | None => Ok (s, ev)
  | Some pid =>
      match find_pp (k_peers s) pid with
      | None => Ok (s, ev)
      | Some p =>
          if negb (timed_out now (pp_eh_to p)) then Ok (s, ev)
          else
            match hp_verified h with
            | None => Ok (mk_kst (k_keys s) (k_peers s) ((pid, hp_hk h) :: k_verifying s), ev)
            | Some false => Ok (s, ev)
            | Some true =>
                if N.eqb (hp_type h) 1 then
                  if hp_limited h then Ok (s, ev)
                  else let '(s, ev2) := respond now false cur pid p (hp_hk h) s in Ok (s, ev ++ ev2)
                else
                  match choose now prev cur (hp_rhk h) with
                  | None => Ok (s, ev)
                  | Some hk =>
                      if N.eqb (hp_type h) 2 then let '(s, ev2) := finish now pid hk h p s in Ok (s, ev ++ ev2)
                      else if N.eqb (hp_type h) 3 then let '(s, ev2) := handle_finish now pid hk h p s in Ok (s, ev ++ ev2)
                      else Ok (s, ev)
                  end
            end
      end
  end.

(** [handshake_init], handshake.c L468-497; [handle_verify_return] with a positive
    result, L598-610: without maintenance; [init_peer_state], state.c L65-73, with
    [add_dynamic] L562-563; [reset_peer_state] L84-91 leaves the cache alone;
    [free_peer_state] L94-101 *)
Definition kstep (s : kst K) (o : kop K) : res (kst K * list kev) :=
  match o with
  | KInit now rnd =>
      do r <- maintenance now rnd s;
      let '(_, cur, s, ev) := r in
      Ok (s, ev ++ [Offered now (hk_pair cur)])
  | KHandle now rnd h => handshake_handle now rnd h s
  | KVerifyReturn now pid hk =>
      if existsb (fun '(i, b) => N.eqb i pid && bytes_eqb b hk) (k_verifying s) then
        match find_pp (k_peers s) pid, k_keys s with
        | Some p, Some (_, cur) => Ok (respond now true cur pid p hk s)
        | _, _ => Ok (s, [])
        end
      else Ok (s, [])
  | KAdd now pid key dynamic =>
      match find_pp (k_peers s) pid with
      | Some _ => Bug
      | None =>
          let '(prev, cur) := keys_of now s in
          let last := if dynamic then N.pred (hk_serial cur) else hk_serial cur in
          Ok (mk_kst (Some (prev, cur)) ((pid, mk_pproto key last 0 0 zero32 zero32 zero32) :: k_peers s) (k_verifying s), [])
      end
  | KReset now pid => Ok (s, [])
  | KDelete now pid => Ok (mk_kst (k_keys s) (del_pp (k_peers s) pid) (k_verifying s), [])
  end.

Fixpoint krun (s : kst K) (l : list (kop K)) : res (kst K * list kev) :=
  match l with
  | [] => Ok (s, [])
  | o :: l' =>
      do r <- kstep s o;
      let '(s1, ev1) := r in
      do r2 <- krun s1 l';
      let '(s2, ev2) := r2 in
      Ok (s2, ev1 ++ ev2)
  end.

Definition kstart : kst K := mk_kst None [] [].
End Ephemeral.
