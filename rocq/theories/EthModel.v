(** Ethernet addresses and forwarding in TAP mode: peer.c (vector of addresses), send.c
    (destinations of a frame), receive.c (frames from peers).  A peer is its id and whether
    it is established; sessions are not modelled: each event says which peers' sessions have
    expired (NodeModel has the sessions).  Frames are bytes. *)
From Verif Require Import Base BufferModel.

Definition ETH_ADDR_STALE_TIME : Z := 300000%Z. (* build.h.in L118 *)

(** [fastd_peer_eth_addr_t], peer.h L102-106; None: NULL, the local side *)
Record entry := mk_entry { e_addr : bytes; e_peer : option N; e_to : Z }.

(** memcmp *)
Fixpoint memcmp (a b : bytes) : comparison :=
  match a, b with
  | x :: a, y :: b => match N.compare x y with Eq => memcmp a b | c => c end
  | _, _ => Eq
  end.

(** [fastd_peer_eth_addr_add], peer.c L897-924, without the check of the peer: the search *)
Fixpoint add_search (fuel : nat) (v : list entry) (a : bytes) (min max : nat) : res (nat * bool) :=
  if Nat.ltb min max then
    match fuel with
    | O => UB
    | S fuel =>
        let cur := min + (max - min) / 2 in
        match nth_error v cur with
        | None => UB
        | Some e =>
            match memcmp a (e_addr e) with
            | Eq => Ok (cur, true)
            | Lt => add_search fuel v a min cur
            | Gt => add_search fuel v a (cur + 1) max
            end
        end
    end
  else Ok (min, false).
Definition set_nth (v : list entry) (i : nat) (e : entry) : list entry := firstn i v ++ e :: skipn (S i) v.
(** [_fastd_vector_insert], vector.c L60-67 *)
Definition insert (v : list entry) (i : nat) (e : entry) : res (list entry) :=
  if Nat.leb i (length v) then Ok (firstn i v ++ e :: skipn i v) else UB.
Definition eth_add (v : list entry) (now : Z) (p : option N) (a : bytes) : res (list entry) :=
  do r <- add_search (length v) v a 0 (length v);
  let e := mk_entry a p (now + ETH_ADDR_STALE_TIME) in
  if snd r then Ok (set_nth v (fst r) e) else insert v (fst r) e.

(** bsearch(3) as in glibc, as called by [fastd_peer_find_by_eth_addr], peer.c L927-936 *)
Fixpoint bsearch (fuel : nat) (v : list entry) (a : bytes) (l u : nat) : res (option entry) :=
  if Nat.ltb l u then
    match fuel with
    | O => UB
    | S fuel =>
        let idx := (l + u) / 2 in
        match nth_error v idx with
        | None => UB
        | Some e =>
            match memcmp a (e_addr e) with
            | Eq => Ok (Some e)
            | Lt => bsearch fuel v a l idx
            | Gt => bsearch fuel v a (idx + 1) u
            end
        end
    end
  else Ok None.
Definition eth_find (v : list entry) (a : bytes) : res (option entry) := bsearch (length v) v a 0 (length v).

(** The loop removing entries in [reset_peer], peer.c L302-311, and [fastd_peer_eth_addr_cleanup],
    L1010-1025: entries are moved forward by the number removed so far *)
Fixpoint compact (drop : entry -> bool) (n i deleted : nat) (v : list entry) : res (list entry) :=
  match n with
  | O => Ok (firstn (length v - deleted) v)
  | S n =>
      match nth_error v i with
      | None => UB
      | Some e =>
          if drop e then compact drop n (S i) (S deleted) v
          else if Nat.eqb deleted 0 then compact drop n (S i) deleted v
          else compact drop n (S i) deleted (set_nth v (i - deleted) e)
      end
  end.
Definition is_peer (p : N) (e : entry) : bool := match e_peer e with Some q => N.eqb q p | None => false end.
Definition eth_reset (v : list entry) (p : N) : res (list entry) := compact (is_peer p) (length v) 0 0 v.
Definition eth_cleanup (v : list entry) (now : Z) : res (list entry) := compact (fun e => timed_out now (e_to e)) (length v) 0 0 v.

(** ** The node *)
Record eth_node := mk_eth_node { m_now : Z; m_eth : list entry; m_peers : list (N * bool); m_next : N }.

Definition established (l : list (N * bool)) (p : N) : bool := existsb (fun q => N.eqb (fst q) p && snd q)%bool l.
Definition set_established (b : bool) (p : N) (l : list (N * bool)) : list (N * bool) :=
  map (fun q => if N.eqb (fst q) p then (p, b) else q) l.

(** [reset_peer] *)
Definition reset_peer (s : eth_node) (p : N) : res eth_node :=
  do v <- eth_reset (m_eth s) p;
  Ok (mk_eth_node (m_now s) v (set_established false p (m_peers s)) (m_next s)).

(** [protocol_send]: dropped for a peer that is not established; the peer is reset if its session has
    expired (ec25519_fhmqvc.c L184-198) *)
Definition send (expired : list N) (s : eth_node) (p : N) : res (eth_node * list N) :=
  if negb (established (m_peers s) p) then Ok (s, [])
  else if existsb (N.eqb p) expired then do s <- reset_peer s p; Ok (s, [])
  else Ok (s, [p]).

(** [send_all], send.c L159-176: the loop over the vector of peers; sending never adds or removes peers *)
Definition opt_is (o : option N) (p : N) : bool := match o with Some q => N.eqb q p | None => false end.
Fixpoint send_all (expired : list N) (source : option N) (l : list N) (s : eth_node) : res (eth_node * list N) :=
  match l with
  | [] => Ok (s, [])
  | p :: l =>
      if (opt_is source p || negb (established (m_peers s) p))%bool then send_all expired source l s
      else
        do r <- send expired s p;
        do r' <- send_all expired source l (fst r);
        Ok (fst r', snd r ++ snd r')
  end.

(** fastd_eth_header_t: destination, source, type *)
Definition ETH_HEADER : nat := 14.
Definition dest_address (f : bytes) : bytes := firstn 6 f.
Definition source_address (f : bytes) : bytes := firstn 6 (skipn 6 f).
Definition is_unicast (a : bytes) : bool := N.eqb (N.land (nth 0 a 0%N) 1) 0.

(** [fastd_peer_eth_addr_add] *)
Definition learn (s : eth_node) (p : option N) (a : bytes) : res eth_node :=
  if match p with Some p => negb (established (m_peers s) p) | None => false end then Bug
  else do v <- eth_add (m_eth s) (m_now s) p a; Ok (mk_eth_node (m_now s) v (m_peers s) (m_next s)).

(** [fastd_send_data] with [send_data_tap_single], send.c L179-228 *)
Definition send_data (expired : list N) (s : eth_node) (f : bytes) (source dest : option N) : res (eth_node * list N) :=
  match dest with
  | Some d => send expired s d
  | None =>
      if Nat.ltb (length f) ETH_HEADER then Ok (s, [])
      else
        do s <- (match source with
                 | None => if is_unicast (source_address f) then learn s None (source_address f) else Ok s
                 | Some _ => Ok s
                 end);
        if negb (is_unicast (dest_address f)) then send_all expired source (map fst (m_peers s)) s
        else
          do e <- eth_find (m_eth s) (dest_address f);
          match e with
          | None => send_all expired source (map fst (m_peers s)) s
          | Some e =>
              match e_peer e with
              | None => Ok (s, [])
              | Some d => if opt_is source d then Ok (s, []) else send expired s d
              end
          end
  end.

(** [fastd_handle_receive], receive.c L288-329, for a peer with an interface *)
Definition handle_receive (forward : bool) (expired : list N) (s : eth_node) (p : N) (f : bytes) : res (eth_node * list N) :=
  if Nat.ltb (length f) ETH_HEADER then Ok (s, [])
  else
    do s <- (if is_unicast (source_address f) then learn s (Some p) (source_address f) else Ok s);
    if forward then send_data expired s f (Some p) None else Ok (s, []).

Inductive eth_event : Type :=
| FTime (dt : N)
| FRecv (forward : bool) (p : N) (f : bytes) (expired : list N)       (* a frame from a peer *)
| FIface (dest : option N) (f : bytes) (expired : list N)             (* a frame from an interface; dest: of one peer *)
| FReset (p : N)                                                       (* a peer is disconnected *)
| FEstablish (p : N)
| FAdd                                                                  (* a new peer; ids are never reused *)
| FDelete (p : N)
| FCleanup.

Definition eth_step (e : eth_event) (s : eth_node) : res (eth_node * list N) :=
  match e with
  | FTime dt => Ok (mk_eth_node (m_now s + Z.of_N dt) (m_eth s) (m_peers s) (m_next s), [])
  | FRecv forward p f expired => handle_receive forward expired s p f
  | FIface dest f expired => send_data expired s f None dest
  | FReset p => do s <- reset_peer s p; Ok (s, [])
  | FEstablish p => Ok (mk_eth_node (m_now s) (m_eth s) (set_established true p (m_peers s)) (m_next s), [])
  | FAdd => Ok (mk_eth_node (m_now s) (m_eth s) (m_peers s ++ [(m_next s, false)]) (m_next s + 1)%N, [])
  | FDelete p =>
      do s <- reset_peer s p;
      Ok (mk_eth_node (m_now s) (m_eth s) (filter (fun q => negb (N.eqb (fst q) p)) (m_peers s)) (m_next s), [])
  | FCleanup => do v <- eth_cleanup (m_eth s) (m_now s); Ok (mk_eth_node (m_now s) v (m_peers s) (m_next s), [])
  end.
Definition eth_init : eth_node := mk_eth_node 0 [] [] 1.
Fixpoint eth_run (h : list eth_event) (s : eth_node) : res eth_node :=
  match h with
  | [] => Ok s
  | e :: h => do r <- eth_step e s; eth_run h (fst r)
  end.
