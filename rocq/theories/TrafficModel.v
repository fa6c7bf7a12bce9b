(** Payload packets and the statistics about them: send.c, receive.c L287-329, fastd_stats_add (peer.h L286-297),
    ec25519_fhmqvc.c L88-206, with all modes, sessions and outcomes of sendmsg().

    Simplified: the vector of Ethernet addresses is a list with the latest entry first (C33 has the vector); buffers are
    lists of bytes (C42 has the buffers); which socket and addresses are used is in C67; scheduling of handshakes and
    keepalives is left out as it has no effect on payload (C38, C64).  What depends on the time, keys or the kernel (is a
    session still valid, what do encryption and decryption give, what does a system call return) is answered by
    an environment that may answer each question differently. *)
From Verif Require Import Base BufferModel.

(** fastd_stat_type_t, fastd.h L182-189 *)
Inductive stat : Type := STAT_RX | STAT_RX_REORDERED | STAT_TX | STAT_TX_DROPPED | STAT_TX_ERROR.
Definition stat_eqb (a b : stat) : bool :=
  match a, b with
  | STAT_RX, STAT_RX | STAT_RX_REORDERED, STAT_RX_REORDERED | STAT_TX, STAT_TX
  | STAT_TX_DROPPED, STAT_TX_DROPPED | STAT_TX_ERROR, STAT_TX_ERROR => true
  | _, _ => false
  end.
(** struct fastd_stats, fastd.h L192-197 *)
Record stats := mk_stats { packets : stat -> N; octets : stat -> N }.
Definition no_stats : stats := mk_stats (fun _ => 0%N) (fun _ => 0%N).
Definition U64 : N := 18446744073709551616%N.
Definition bump (st : stat) (n : N) (f : stat -> N) : stat -> N := fun x => if stat_eqb x st then ((f x + n) mod U64)%N else f x.
Definition count1 (st : stat) (n : N) (c : stats) : stats := mk_stats (bump st 1 (packets c)) (bump st n (octets c)).

(** protocol_session_t: which session it is, who started it, [handshakes_cleaned] *)
Record session := mk_session { s_no : N; s_initiator : bool; s_cleaned : bool }.
Inductive pstate : Type := Inactive | Waiting | Established.  (* fastd_peer_state_t; Waiting: all others *)
(** [fastd_peer_t]; [p_sess], [p_old]: protocol_state->session, old_session; None: no method;
    [p_local]: is local_address set *)
Record peer := mk_peer { p_id : N; p_state : pstate; p_proto : bool; p_sess : option session; p_old : option session;
                         p_iface : option N; p_local : bool; p_stats : stats }.
Record node := mk_node { n_peers : list peer; n_eth : list (bytes * option N); n_stats : stats; n_next : N; n_tick : nat }.
Record config := mk_config { c_tap : bool; c_forward : bool }.

(** Results of system calls: None is success *)
Inductive errno : Type := EAGAIN | EINVAL | ENETUNREACH | ENETDOWN | EHOSTUNREACH | EOTHER (n : N).
Record environment := mk_environment {
  e_valid : nat -> session -> bool;                                    (* session_is_valid *)
  e_encrypt : nat -> session -> bytes -> option bytes;                 (* encrypt *)
  e_decrypt : nat -> session -> bytes -> option (bytes * option bool); (* decrypt; the value stored in *reordered, if any *)
  e_send : nat -> option errno;                                        (* sendmsg *)
  e_write : nat -> option errno;                                       (* write to an interface *)
  e_iface : nat -> option N }.                                         (* the interface of a peer after setup_peer *)

(** What can be seen from outside *)
Inductive event : Type :=
| Send (who : option N) (payload : option bytes) (wire : bytes) (pktinfo : bool) (r : option errno)  (* a call of sendmsg(); payload: of a data packet *)
| Write (who iface : N) (frame : bytes) (reordered : bool) (r : option errno)                     (* a call of write() *)
| Expired (who : N)                              (* "active session with %P timed out" *)
| EncryptFailed (who : N) (frame : bytes)        (* "failed to encrypt packet for %P" *)
| Reset (who : N) (gone : stats)                 (* a peer is reset; its statistics until now *)
| Removed (who : N).                             (* a peer is deleted *)

Section Env.
Context (E : environment) (C : config).

Definition find (p : N) (s : node) : option peer := List.find (fun q => N.eqb (p_id q) p) (n_peers s).
Definition get (p : N) (s : node) : res peer := match find p s with Some q => Ok q | None => UB end.
Definition change (p : N) (f : peer -> peer) (s : node) : node :=
  mk_node (map (fun q => if N.eqb (p_id q) p then f q else q) (n_peers s)) (n_eth s) (n_stats s) (n_next s) (n_tick s).
Definition with_eth (v : list (bytes * option N)) (s : node) : node := mk_node (n_peers s) v (n_stats s) (n_next s) (n_tick s).
Definition tick (s : node) : node := mk_node (n_peers s) (n_eth s) (n_stats s) (n_next s) (S (n_tick s)).
Definition set_sessions (new old : option session) (q : peer) : peer :=
  mk_peer (p_id q) (p_state q) (p_proto q) new old (p_iface q) (p_local q) (p_stats q).
Definition set_stats (c : stats) (q : peer) : peer :=
  mk_peer (p_id q) (p_state q) (p_proto q) (p_sess q) (p_old q) (p_iface q) (p_local q) c.

(** [fastd_stats_add], peer.h L286-297; [peer] is dereferenced unless there is nothing to count *)
Definition stats_add (who : option N) (st : stat) (n : N) (s : node) : res node :=
  if N.eqb n 0 then Ok s
  else
    let s := mk_node (n_peers s) (n_eth s) (count1 st n (n_stats s)) (n_next s) (n_tick s) in
    match who with
    | None => UB
    | Some p => do q <- get p s; Ok (change p (set_stats (count1 st n (p_stats q))) s)
    end.

(** [reset_peer], peer.c L292-336, followed by [setup_peer] in [fastd_peer_reset], L652-659.  The protocol state is kept, its
    sessions are not; [setup_peer] leaves the peer inactive if it is disabled *)
Definition opt_is (o : option N) (p : N) : bool := match o with Some q => N.eqb q p | None => false end.
Definition reset_peer (p : N) (s : node) : res (node * list event) :=
  do q <- get p s;
  Ok (with_eth (filter (fun e => negb (opt_is (snd e) p)) (n_eth s))
        (change p (fun q => mk_peer (p_id q) Inactive (p_proto q) None None None false no_stats) s), [Reset p (p_stats q)]).
Definition setup_peer (p : N) (disabled : bool) (s : node) : node :=
  tick (change p (fun q => if disabled then q else mk_peer (p_id q) Waiting (p_proto q) (p_sess q) (p_old q) (e_iface E (n_tick s)) false (p_stats q)) s).
Definition peer_reset (p : N) (disabled : bool) (s : node) : res (node * list event) :=
  do q <- get p s;
  do r <- (match p_state q with Inactive => Ok (s, []) | _ => reset_peer p s end);
  Ok (setup_peer p disabled (fst r), snd r).

(** [is_session_valid], ec25519_fhmqvc.h *)
Definition is_valid (x : option session) (s : node) : bool := match x with Some x => e_valid E (n_tick s) x | None => false end.

(** [check_session], ec25519_fhmqvc.c L88-95; the peer is enabled, as it has a connection or one in preparation *)
Definition check_session (p : N) (s : node) : res (bool * node * list event) :=
  do q <- get p s;
  let ok := is_valid (p_sess q) s in
  let s := tick s in
  if ok then Ok (true, s, []) else do r <- peer_reset p false s; Ok (false, fst r, Expired p :: snd r).

(** [fastd_send], send.c L69-156; EAGAIN stands for EWOULDBLOCK as well *)
Definition retry (r : option errno) : bool := match r with Some EINVAL | Some ENETUNREACH => true | _ => false end.
Definition fastd_send (who : option N) (pktinfo : bool) (payload : option bytes) (wire : bytes) (stat_size : N) (s : node) : res (node * list event) :=
  let r1 := e_send E (n_tick s) in
  let s := tick s in
  let '(r, s, ev) :=
    if (pktinfo && retry r1)%bool then
      (e_send E (n_tick s), tick s, [Send who payload wire true r1; Send who payload wire false (e_send E (n_tick s))])
    else (r1, s, [Send who payload wire pktinfo r1]) in
  do s <- (match r with
           | Some EAGAIN => stats_add who STAT_TX_DROPPED stat_size s
           | Some ENETDOWN | Some ENETUNREACH | Some EHOSTUNREACH => stats_add who STAT_TX_ERROR stat_size s
           | Some _ => stats_add who STAT_TX_ERROR stat_size s
           | None => stats_add who STAT_TX stat_size s
           end);
  Ok (s, ev).

(** [session_send], ec25519_fhmqvc.c L163-181 *)
Definition session_send (p : N) (x : session) (f : bytes) (s : node) : res (node * list event) :=
  do q <- get p s;
  let stat_size := N.of_nat (length f) in
  let w := e_encrypt E (n_tick s) x f in
  let s := tick s in
  match w with
  | None => Ok (s, [EncryptFailed p f])
  | Some w => fastd_send (Some p) (p_local q) (Some f) w stat_size s
  end.

(** [use_old_session], ec25519_fhmqvc.c L97-106; the new session has a method: it has been checked *)
Definition use_old_session (q : peer) (s : node) : bool :=
  (match p_sess q with Some x => s_initiator x | None => false end && is_valid (p_old q) s)%bool.

(** [protocol_send], ec25519_fhmqvc.c L183-198 *)
Definition protocol_send (p : N) (f : bytes) (s : node) : res (node * list event) :=
  do q <- get p s;
  if negb (p_proto q) then Ok (s, [])
  else match p_state q with
  | Established =>
      do c <- check_session p s;
      let '(ok, s, ev) := c in
      if negb ok then Ok (s, ev)
      else
        do q <- get p s;
        match (if use_old_session q s then p_old q else p_sess q) with
        | None => UB
        | Some x => do r <- session_send p x f (tick s); Ok (fst r, ev ++ snd r)
        end
  | _ => Ok (s, [])
  end.

(** [send_all], send.c L159-176: [l] are the peers from the current index on; sending neither adds nor removes peers.
    The last one gets the buffer itself, the others copies *)
Fixpoint send_all (l : list N) (source : option N) (f : bytes) (s : node) : res (node * list event) :=
  match l with
  | [] => Ok (s, [])
  | p :: l =>
      do q <- get p s;
      if (opt_is source p || match p_state q with Established => false | _ => true end)%bool then send_all l source f s
      else do r <- protocol_send p f s; do r' <- send_all l source f (fst r); Ok (fst r', snd r ++ snd r')
  end.

(** fastd_eth_header_t: destination, source, type *)
Definition ETH_HEADER : nat := 14.
Definition dest_address (f : bytes) : bytes := firstn 6 f.
Definition source_address (f : bytes) : bytes := firstn 6 (skipn 6 f).
Definition is_unicast (a : bytes) : bool := N.eqb (N.land (nth 0 a 0%N) 1) 0.
Definition addr_eqb (a b : bytes) : bool := if list_eq_dec N.eq_dec a b then true else false.
(** [fastd_peer_eth_addr_add], peer.c L897-924 *)
Definition eth_add (who : option N) (a : bytes) (s : node) : res node :=
  do ok <- (match who with
            | None => Ok true
            | Some p => do q <- get p s; Ok (match p_state q with Established => true | _ => false end)
            end);
  if negb ok then Bug else Ok (with_eth ((a, who) :: filter (fun e => negb (addr_eqb (fst e) a)) (n_eth s)) s).
(** [fastd_peer_find_by_eth_addr], peer.c L927-936 *)
Definition eth_find (a : bytes) (s : node) : option (option N) := option_map snd (List.find (fun e => addr_eqb (fst e) a) (n_eth s)).

(** [send_data_tap_single] and [fastd_send_data], send.c L178-228 *)
Definition send_data (f : bytes) (source dest : option N) (s : node) : res (node * list event) :=
  match dest with
  | Some d => protocol_send d f s
  | None =>
      if negb (c_tap C) then send_all (map p_id (n_peers s)) source f s
      else if Nat.ltb (length f) ETH_HEADER then Ok (s, [])
      else
        do s <- (match source with
                 | None => if is_unicast (source_address f) then eth_add None (source_address f) s else Ok s
                 | Some _ => Ok s
                 end);
        if negb (is_unicast (dest_address f)) then send_all (map p_id (n_peers s)) source f s
        else match eth_find (dest_address f) s with
        | None => send_all (map p_id (n_peers s)) source f s
        | Some None => Ok (s, [])
        | Some (Some d) => if opt_is source d then Ok (s, []) else protocol_send d f s
        end
  end.

(** [fastd_iface_write], iface.c L449-478, for platforms without a prefix to packets (C74 has the others) *)
Definition iface_write (p i : N) (f : bytes) (reordered : bool) (s : node) : node * list event :=
  match f with
  | [] => (s, [])
  | _ => (tick s, [Write p i f reordered (e_write E (n_tick s))])
  end.

(** [fastd_handle_receive], receive.c L287-329 *)
Definition handle_receive (p : N) (f : bytes) (reordered : bool) (s : node) : res (node * list event) :=
  do q <- get p s;
  match p_iface q with
  | None => Ok (s, [])
  | Some i =>
      if (c_tap C && Nat.ltb (length f) ETH_HEADER)%bool then Ok (s, [])
      else
        do s <- (if (c_tap C && is_unicast (source_address f))%bool then eth_add (Some p) (source_address f) s else Ok s);
        do s <- stats_add (Some p) STAT_RX (N.of_nat (length f)) s;
        do s <- (if reordered then stats_add (Some p) STAT_RX_REORDERED (N.of_nat (length f)) s else Ok s);
        let w := iface_write p i f reordered s in
        if (c_tap C && c_forward C)%bool then
          do r <- send_data f (Some p) None (fst w); Ok (fst r, snd w ++ snd r)
        else Ok w
  end.

(** [protocol_handle_recv], ec25519_fhmqvc.c L108-161; check_session_refresh and fastd_peer_seen have no effect here *)
Definition assigned (o : option bool) (b : bool) : bool := match o with Some b => b | None => b end.
Definition handle_recv (p : N) (w : bytes) (s : node) : res (node * list event) :=
  do q <- get p s;
  if negb (p_proto q) then Ok (s, [])
  else
    do c <- check_session p s;
    let '(ok, s, ev) := c in
    if negb ok then Ok (s, ev)
    else
      do q <- get p s;
      let valid := is_valid (p_old q) s in
      let s := tick s in
      let from_old := match p_old q with Some x => if valid then e_decrypt E (n_tick s) x w else None | None => None end in
      let s := tick s in
      match from_old with
      | Some (f, o) => match f with [] => Ok (s, ev) | _ => do r <- handle_receive p f (assigned o false) s; Ok (fst r, ev ++ snd r) end
      | None =>
          match p_sess q with
          | None => UB
          | Some x =>
              let from_new := e_decrypt E (n_tick s) x w in
              let s := tick s in
              match from_new with
              | None => Ok (s, ev)
              | Some (f, o) =>
                  let x' := mk_session (s_no x) (s_initiator x) true in
                  let s := change p (set_sessions (Some x') None) s in
                  do r1 <- (if (negb (s_cleaned x) && s_initiator x)%bool then session_send p x' [] s else Ok (s, []));
                  let s := fst r1 in
                  match f with
                  | [] => Ok (s, ev ++ snd r1)
                  | _ => do r <- handle_receive p f (assigned o false) s; Ok (fst r, ev ++ snd r1 ++ snd r)
                  end
              end
          end
      end.

(** What can happen.  The rest of the program is reduced to its effect on the state used here *)
Inductive op : Type :=
| OIface (dest : option N) (f : bytes)               (* a packet is read from an interface; dest: the peer the interface belongs to *)
| OPacket (p : N) (w : bytes)                        (* a data packet from a peer *)
| OKeepalive (p : N)                                 (* fastd_peer_handle_task, peer.c L997-1001 *)
| OHandshake (who : option N) (pktinfo : bool) (w : bytes)  (* fastd_handshake_send_free, handshake.c L278-301, one of its packets *)
| OEstablish (p : N) (x : session) (old : option session) (i : option N)
                                                     (* establish, handshake.c L108-152: new sessions, state, interface (None: offloaded) *)
| OReset (p : N) (disabled : bool)                   (* fastd_peer_reset *)
| OAdd (disabled : bool)                             (* fastd_peer_add: a new peer; ids are not reused (C34) *)
| ODelete (p : N)                                    (* fastd_peer_delete *)
| OForget (keep : bytes -> bool).                    (* fastd_peer_eth_addr_cleanup *)

Definition step (o : op) (s : node) : res (node * list event) :=
  match o with
  | OIface dest f => send_data f None dest s
  | OPacket p w => handle_recv p w s
  | OKeepalive p => protocol_send p [] s
  | OHandshake who pktinfo w => fastd_send who pktinfo None w 0 s
  | OEstablish p x old i =>
      let s := change p (fun q => mk_peer (p_id q) Established true (Some x) old i true (p_stats q)) s in
      if s_initiator x then Ok (s, []) else session_send p x [] s
  | OReset p disabled => peer_reset p disabled s
  | OAdd disabled =>
      Ok (setup_peer (n_next s) disabled
            (mk_node (n_peers s ++ [mk_peer (n_next s) Inactive false None None None false no_stats]) (n_eth s) (n_stats s) (n_next s + 1)%N (n_tick s)), [])
  | ODelete p =>
      do r <- reset_peer p s;
      Ok (mk_node (filter (fun q => negb (N.eqb (p_id q) p)) (n_peers (fst r))) (n_eth (fst r)) (n_stats (fst r)) (n_next (fst r)) (n_tick (fst r)),
          snd r ++ [Removed p])
  | OForget keep => Ok (with_eth (filter (fun e => keep (fst e)) (n_eth s)) s, [])
  end.

Definition init : node := mk_node [] [] no_stats 1 0.
Fixpoint run (l : list op) (s : node) : res (node * list event) :=
  match l with
  | [] => Ok (s, [])
  | o :: l => do r <- step o s; do r' <- run l (fst r); Ok (fst r', snd r ++ snd r')
  end.
End Env.
