(** Model of L2TP offloading: offload/l2tp/l2tp.c, with the sockets it uses (socket.c)
    and the peers that use it (peer.c), and of what the kernel does when asked.

    Followed: all of l2tp.c; [fastd_socket_open], [fastd_socket_open_offload],
    [fastd_socket_close] (socket.c L221-290); [free_socket],
    [fastd_peer_reset_socket], the parts of [reset_peer] and
    [fastd_peer_claim_address] about sockets, addresses and offloading,
    [send_handshake], [fastd_peer_set_established] (peer.c L169-230, L292-337,
    L602-650, L798-883); the beginning of [handle_socket_receive] (receive.c
    L174-193); [establish] (handshake.c L110-140).

    Simplified: IP addresses of hosts are numbers, a local address is such a number
    and a port; remote addresses are numbers, 0 is AF_UNSPEC.  Interface names are
    numbers, 0 is the empty name (the kernel's names have less than 16 bytes, so
    strncpy keeps them).  Which peers are reset when is an arbitrary input, as are
    all answers of the system; scripts and TAP interfaces are in LifeModel.v.
    File descriptors and pointers are not reused, so that each use of a stale one
    shows.  Closing a socket removes its tunnel at once (the kernel defers this).
    The attributes of Netlink messages are not spelled out in bytes. *)
From Coq Require Import List NArith Bool.
Import ListNotations.
Local Open Scope N_scope.

(** ** The system *)

(** A tunnel in the kernel: connection id, the file descriptor it was made for (None
    if by another program), and name and MTU of the interface of its session 1 *)
Record tun := mk_tun { t_id : N; t_fd : option N; t_ses : option (N * N) }.
(** An open UDP socket: bound address (None is the wildcard), port, connected to *)
Record kfd := mk_kfd { k_fd : N; k_ip : option N; k_port : N; k_remote : N }.
(** Netlink messages to the process: a reply with the attribute the callbacks look
    for (if any), or the acknowledgement with an error number, which is 0 on success *)
Inductive payload := Data (v : option N) | Ack (err : N).
Record msg := mk_msg { m_seq : N; m_body : payload }.

(** ** The process *)

(** [fastd_socket_t], fastd.h L148-169: [addr] set, [peer] set, [parent] set *)
Inductive kind := Static | Dynamic (p : N) | Offload (parent : N).
Record sock := mk_sock { so_fd : N; so_ip : option N; so_port : N; so_kind : kind }.
(** [fastd_offload_state], l2tp.c L34-39 *)
Record session := mk_session { e_sock : N; e_conn : N; e_name : N; e_mtu : N }.
(** [fastd_peer_t]: [sock], [local_address], [address], STATE_ESTABLISHED, [offload_state] *)
Record peer := mk_peer { p_sock : option N; p_local : N * N; p_addr : N; p_est : bool; p_off : option session }.
Definition idle : peer := mk_peer None (0, 0) 0 false None.

Record config := mk_config {
  c_reliable : bool;        (* Netlink messages are always sent and received *)
  c_exclusive : bool;       (* a port given to a new socket is not in use at an overlapping address *)
  c_default4 : option N;    (* [ctx.sock_default_v4] *)
  c_default6 : option N;
  c_name : N -> option N;   (* [fastd_iface_format_name]; None is failure *)
  c_mtu : N -> N            (* [fastd_peer_get_mtu] *)
}.

Record st := mk_st {
  s_ans : list N;           (* the answers of the system still to come *)
  s_errno : N;
  s_next : N;               (* next file descriptor or pointer *)
  s_fds : list kfd;
  s_tuns : list tun;
  s_seq : N;                (* [nl->seq] *)
  s_queue : list msg;       (* Netlink messages not yet received *)
  s_skerr : N;              (* error on the Netlink socket, reported by the next receive *)
  s_heap : N -> option sock;
  s_peers : N -> peer }.

Definition set_ans x s := mk_st x (s_errno s) (s_next s) (s_fds s) (s_tuns s) (s_seq s) (s_queue s) (s_skerr s) (s_heap s) (s_peers s).
Definition set_errno x s := mk_st (s_ans s) x (s_next s) (s_fds s) (s_tuns s) (s_seq s) (s_queue s) (s_skerr s) (s_heap s) (s_peers s).
Definition set_next x s := mk_st (s_ans s) (s_errno s) x (s_fds s) (s_tuns s) (s_seq s) (s_queue s) (s_skerr s) (s_heap s) (s_peers s).
Definition set_fds x s := mk_st (s_ans s) (s_errno s) (s_next s) x (s_tuns s) (s_seq s) (s_queue s) (s_skerr s) (s_heap s) (s_peers s).
Definition set_tuns x s := mk_st (s_ans s) (s_errno s) (s_next s) (s_fds s) x (s_seq s) (s_queue s) (s_skerr s) (s_heap s) (s_peers s).
Definition set_seq x s := mk_st (s_ans s) (s_errno s) (s_next s) (s_fds s) (s_tuns s) x (s_queue s) (s_skerr s) (s_heap s) (s_peers s).
Definition set_queue x s := mk_st (s_ans s) (s_errno s) (s_next s) (s_fds s) (s_tuns s) (s_seq s) x (s_skerr s) (s_heap s) (s_peers s).
Definition set_skerr x s := mk_st (s_ans s) (s_errno s) (s_next s) (s_fds s) (s_tuns s) (s_seq s) (s_queue s) x (s_heap s) (s_peers s).
Definition set_heap x s := mk_st (s_ans s) (s_errno s) (s_next s) (s_fds s) (s_tuns s) (s_seq s) (s_queue s) (s_skerr s) x (s_peers s).
Definition set_peers x s := mk_st (s_ans s) (s_errno s) (s_next s) (s_fds s) (s_tuns s) (s_seq s) (s_queue s) (s_skerr s) (s_heap s) x.
Definition upd {A} (f : N -> A) (k : N) (v : A) : N -> A := fun x => if x =? k then v else f x.

(** What commands do: return; [exit_errno]; [exit_bug]; wait forever for a message that
    does not come; use memory or a file descriptor that is gone; draw random numbers
    without end; use the parent of an offload socket after it was freed *)
Inductive out (A : Type) := Done (a : A) (s : st) | Ended | Bug | Hang | Wild | Spin | Stale.
Arguments Done {A}. Arguments Ended {A}. Arguments Bug {A}. Arguments Hang {A}. Arguments Wild {A}. Arguments Spin {A}. Arguments Stale {A}.
Definition M (A : Type) := st -> out A.
Definition ret {A} (a : A) : M A := fun s => Done a s.
Definition bind {A B} (m : M A) (f : A -> M B) : M B :=
  fun s => match m s with Done a s' => f a s' | Ended => Ended | Bug => Bug | Hang => Hang | Wild => Wild | Spin => Spin | Stale => Stale end.
Definition get : M st := fun s => Done s s.
Definition put (f : st -> st) : M unit := fun s => Done tt (f s).
Definition ask : M N := fun s => match s_ans s with a :: r => Done a (set_ans r s) | [] => Done 0 s end.

Declare Scope l2tp_scope.
Notation "x <- m ;; f" := (bind m (fun x => f)) (at level 61, m at next level, right associativity) : l2tp_scope.
Notation "m ;; f" := (bind m (fun _ => f)) (at level 61, right associativity) : l2tp_scope.
Local Open Scope l2tp_scope.

Definition ENOBUFS := 105. Definition EPROTO := 71. Definition EEXIST := 17. Definition ENODEV := 19.
Definition EBADF := 9. Definition EBUSY := 16. Definition EADDRINUSE := 98.

(** ** The kernel's side of Netlink *)

Inductive request :=
| RFamily                      (* CTRL_CMD_GETFAMILY *)
| RTunnel (fd id : N)          (* L2TP_CMD_TUNNEL_CREATE *)
| RSession (id name : N)       (* L2TP_CMD_SESSION_CREATE, 0: no name given *)
| RGet (id : N)                (* L2TP_CMD_SESSION_GET *)
| RDelete (id : N).            (* L2TP_CMD_SESSION_DELETE *)

Definition find_tun (id : N) (l : list tun) : option tun := find (fun t => t_id t =? id) l.
Definition name_used (n : N) (l : list tun) : bool :=
  existsb (fun t => match t_ses t with Some (m, _) => m =? n | None => false end) l.
Definition with_ses (id : N) (x : option (N * N)) (l : list tun) : list tun :=
  map (fun t => if t_id t =? id then mk_tun (t_id t) (t_fd t) x else t) l.
Definition on_fd (fd : N) (t : tun) : bool := match t_fd t with Some f => f =? fd | None => false end.
Definition is_open (fd : N) (l : list kfd) : bool := existsb (fun k => k_fd k =? fd) l.
(** The MTU of a new interface *)
Definition default_mtu := 1446.

(** The result of a request: error number, attribute of the reply (None: no reply,
    only the acknowledgement) and tunnels afterwards.  [a] (if not 0) is the error with
    which the system refuses for other reasons; [n] the name it gives an unnamed interface. *)
Definition kernel (r : request) (a n : N) (fds : list kfd) (l : list tun) : N * option (option N) * list tun :=
  if negb (a =? 0) then (a, None, l)
  else match r with
  | RFamily => (0, Some (Some n), l)
  | RTunnel fd id =>
      match find_tun id l with
      | Some _ => (EEXIST, None, l)
      | None => if negb (is_open fd fds) then (EBADF, None, l)
                else if existsb (on_fd fd) l then (EBUSY, None, l)
                else (0, None, mk_tun id (Some fd) None :: l)
      end
  | RSession id name =>
      let name := if name =? 0 then n else name in
      match find_tun id l with
      | None => (ENODEV, None, l)
      | Some t => match t_ses t with
                  | Some _ => (EEXIST, None, l)
                  | None => if (name =? 0) || name_used name l then (EEXIST, None, l)
                            else (0, None, with_ses id (Some (name, default_mtu)) l)
                  end
      end
  | RGet id =>
      match find_tun id l with
      | Some t => match t_ses t with Some (m, _) => (0, Some (Some m), l) | None => (ENODEV, None, l) end
      | None => (ENODEV, None, l)
      end
  | RDelete id =>
      match find_tun id l with
      | Some t => match t_ses t with Some _ => (0, None, with_ses id None l) | None => (ENODEV, None, l) end
      | None => (ENODEV, None, l)
      end
  end.

(** The answer a system gives that may fail, resp. must not *)
Definition failure (reliable : bool) : M N := if reliable then ret 0 else ask.

(** The kernel handles a request when it is sent; if there is no memory for the
    acknowledgement, the error is noted on the socket instead *)
Definition handle (c : config) (seq : N) (r : request) : M unit :=
  a <- ask ;; n <- ask ;;
  s <- get ;;
  let '(e, d, l) := kernel r a n (s_fds s) (s_tuns s) in
  lost <- failure (c_reliable c) ;;
  put (set_tuns l) ;;
  put (fun s => set_queue (s_queue s ++ match d with Some v => [mk_msg seq (Data v)] | None => [] end) s) ;;
  if lost =? 0 then put (fun s => set_queue (s_queue s ++ [mk_msg seq (Ack e)]) s)
  else put (set_skerr ENOBUFS).

(** ** l2tp.c *)

(** libmnl, [mnl_nlmsg_seq_ok] *)
Definition seq_ok (m : msg) (seq : N) : bool := (m_seq m =? 0) || (seq =? 0) || (m_seq m =? seq).

(** The loop in [do_nl], l2tp.c L88-95, with [mnl_cb_run]; [got] is what the callback
    found.  A failed receive returns a negative number as `bool`, that is true (L91). *)
Fixpoint receive (c : config) (seq : N) (q : list msg) (got : option N) : M (bool * option N) :=
  a <- failure (c_reliable c) ;;
  s <- get ;;
  if negb (a =? 0) then put (set_errno a) ;; put (set_queue q) ;; ret (true, got)
  else if negb (s_skerr s =? 0) then put (set_errno (s_skerr s)) ;; put (set_skerr 0) ;; put (set_queue q) ;; ret (true, got)
  else match q with
  | [] => fun _ => Hang
  | m :: r =>
      if seq_ok m seq then
        match m_body m with
        | Data v => receive c seq r (match v with Some x => Some x | None => got end)
        | Ack e => put (set_queue r) ;; if e =? 0 then ret (true, got) else put (set_errno e) ;; ret (false, got)
        end
      else put (set_queue r) ;; put (set_errno EPROTO) ;; ret (false, got)
  end.

(** [do_nl], l2tp.c L77-98; a failed send returns true, too (L84) *)
Definition do_nl (c : config) (r : request) : M (bool * option N) :=
  put (fun s => set_seq ((s_seq s + 1) mod 2 ^ 32) s) ;;
  s <- get ;;
  let seq := s_seq s in
  a <- failure (c_reliable c) ;;
  if negb (a =? 0) then put (set_errno a) ;; ret (true, None)
  else
    handle c seq r ;;
    s <- get ;;
    receive c seq (s_queue s) None.

(** [genl_get_family_id], l2tp.c L116-139: the result of [do_nl] is never negative *)
Definition get_family (c : config) : M (option N) :=
  r <- do_nl c RFamily ;; ret (snd r).

(** [new_conn_id], l2tp.c L141-146 *)
Definition new_conn_id : M N := a <- ask ;; ret (a mod 2 ^ 32).

(** l2tp.c L149-259 *)
Definition tunnel_create (c : config) (fd id : N) : M bool := r <- do_nl c (RTunnel fd id) ;; ret (fst r).
Definition session_create (c : config) (id name : N) : M bool := r <- do_nl c (RSession id name) ;; ret (fst r).
Definition session_get_ifname (c : config) (id : N) : M (option N) :=
  r <- do_nl c (RGet id) ;;
  if negb (fst r) then ret None
  else ret (match snd r with Some n => if n =? 0 then None else Some n | None => None end).
Definition session_delete (c : config) (id : N) : M bool := r <- do_nl c (RDelete id) ;; ret (fst r).

(** The loops in [l2tp_selftest] (L268-281) and [fastd_offload_l2tp_init_session]
    (L397-410).  Each pass uses an answer; when no more come, all random numbers are 0. *)
Fixpoint create_tunnel (c : config) (fd : N) (fuel : nat) : M (option N) :=
  match fuel with
  | O => fun _ => Spin
  | S n =>
      id <- new_conn_id ;;
      if id =? 0 then create_tunnel c fd n
      else
        ok <- tunnel_create c fd id ;;
        if ok then ret (Some id)
        else
          s <- get ;;
          if s_errno s =? EEXIST then create_tunnel c fd n else ret None
  end.
Definition new_tunnel (c : config) (fd : N) : M (option N) :=
  s <- get ;; create_tunnel c fd (S (length (s_ans s))).

Definition exit_errno {A} : M A := fun _ => Ended.
Definition exit_bug {A} : M A := fun _ => Bug.
Definition fresh : M N := s <- get ;; put (set_next (s_next s + 1)) ;; ret (s_next s).

(** The kernel opens a socket *)
Definition open_fd (ip : option N) (port : N) : M N :=
  fd <- fresh ;; put (fun s => set_fds (mk_kfd fd ip port 0 :: s_fds s) s) ;; ret fd.
(** close(): with its last file descriptor, a tunnel and its session go away *)
Definition close_fd (fd : N) : M unit :=
  s <- get ;;
  if is_open fd (s_fds s) then
    put (set_fds (filter (fun k => negb (k_fd k =? fd)) (s_fds s))) ;;
    put (set_tuns (filter (fun t => negb (on_fd fd t)) (s_tuns s)))
  else fun _ => Wild.

(** [l2tp_selftest], l2tp.c L262-291 *)
Definition selftest (c : config) : M unit :=
  a <- ask ;;
  if negb (a =? 0) then exit_errno
  else
    fd <- open_fd None 0 ;;
    t <- new_tunnel c fd ;;
    match t with
    | None => exit_errno
    | Some id =>
        ok <- session_create c id 0 ;;
        if negb ok then exit_errno
        else
          ok <- session_delete c id ;;
          if negb ok then exit_errno else close_fd fd
    end.

(** [fastd_offload_l2tp_init], l2tp.c L294-308 *)
Definition l2tp_init (c : config) : M unit :=
  a <- ask ;;
  if negb (a =? 0) then exit_errno
  else
    f <- get_family c ;;
    match f with None => exit_errno | Some _ => selftest c end.

(** [connect_socket], l2tp.c L323-340 *)
Definition connect_socket (id addr : N) : M bool :=
  s <- get ;;
  match s_heap s id with
  | None => fun _ => Wild
  | Some so =>
      if addr =? 0 then exit_bug
      else
        a <- ask ;;
        if negb (a =? 0) then put (set_errno a) ;; ret false
        else
          put (fun s => set_fds (map (fun k => if k_fd k =? so_fd so then mk_kfd (k_fd k) (k_ip k) (k_port k) addr else k) (s_fds s)) s) ;;
          ret true
  end.

(** [fastd_socket_close] and free() of the socket *)
Definition socket_close (id : N) : M unit :=
  s <- get ;;
  match s_heap s id with
  | None => fun _ => Wild
  | Some so => close_fd (so_fd so) ;; put (fun s => set_heap (upd (s_heap s) id None) s)
  end.

(** [free_offload_session], l2tp.c L343-362 *)
Definition free_offload_session (c : config) (sk : option N) (conn : N) (delete : bool) : M unit :=
  match sk with
  | None => ret tt
  | Some id =>
      (if delete then session_delete c conn ;; ret tt else ret tt) ;; (* a failure is only logged *)
      socket_close id
  end.
Definition free_session (c : config) (e : session) : M unit := free_offload_session c (Some (e_sock e)) (e_conn e) true.

Definition overlap (a b : option N) : bool := match a, b with Some x, Some y => x =? y | _, _ => true end.
Definition conflict (ip : option N) (port : N) (l : list kfd) : bool :=
  existsb (fun k => (k_port k =? port) && overlap (k_ip k) ip) l.

(** [bind_socket] and [open_dynamic_socket], socket.c L22-171, L213-223 *)
Definition open_socket (ip : option N) (port : N) (k : kind) : M N :=
  fd <- open_fd ip port ;;
  put (fun s => set_heap (upd (s_heap s) fd (Some (mk_sock fd ip port k))) s) ;; ret fd.

(** [fastd_socket_open], socket.c L226-252: bound to a random port *)
Definition socket_open (c : config) (p : N) (ip : option N) : M (option N) :=
  a <- ask ;; port <- ask ;;
  s <- get ;;
  if negb (a =? 0) || c_exclusive c && conflict ip port (s_fds s) then put (set_errno (if a =? 0 then EADDRINUSE else a)) ;; ret None
  else id <- open_socket ip port (Dynamic p) ;; ret (Some id).

(** [fastd_socket_open_offload], socket.c L255-273 *)
Definition socket_open_offload (parent : N) (local : N * N) : M (option N) :=
  s <- get ;;
  match s_heap s parent with
  | None => fun _ => Wild
  | Some _ =>
      a <- ask ;;
      if negb (a =? 0) then put (set_errno a) ;; ret None
      else id <- open_socket (Some (fst local)) (snd local) (Offload parent) ;; ret (Some id)
  end.

Definition addr_eqb (a b : N * N) : bool := (fst a =? fst b) && (snd a =? snd b).

(** [fastd_offload_l2tp_update_session], l2tp.c L365-370 *)
Definition update_session (p : peer) (e : session) : M bool :=
  s <- get ;;
  match s_heap s (e_sock e) with
  | None => fun _ => Wild
  | Some so =>
      if match so_ip so with Some ip => addr_eqb (p_local p) (ip, so_port so) | None => false end
      then connect_socket (e_sock e) (p_addr p)
      else ret false
  end.

(** [fastd_iface_set_mtu], iface.c L77-92 *)
Definition set_mtu (name mtu : N) : M bool :=
  a <- ask ;;
  s <- get ;;
  if negb (a =? 0) || negb (name_used name (s_tuns s)) then ret false
  else
    put (set_tuns (map (fun t => match t_ses t with
                                 | Some (m, _) => if m =? name then mk_tun (t_id t) (t_fd t) (Some (m, mtu)) else t
                                 | None => t
                                 end) (s_tuns s))) ;;
    ret true.

(** [fastd_offload_l2tp_init_session], l2tp.c L373-440 *)
Definition init_session (c : config) (n : N) (p : peer) : M (option session) :=
  match p_sock p with
  | None => exit_bug
  | Some parent =>
      match c_name c n with
      | None => ret None
      | Some name =>
          o <- socket_open_offload parent (p_local p) ;;
          match o with
          | None => free_offload_session c None 0 false ;; ret None
          | Some id =>
              ok <- connect_socket id (p_addr p) ;;
              if negb ok then free_offload_session c (Some id) 0 false ;; ret None
              else
                s <- get ;;
                t <- new_tunnel c (match s_heap s id with Some so => so_fd so | None => 0 end) ;;
                match t with
                | None => free_offload_session c (Some id) 0 false ;; ret None
                | Some conn =>
                    ok <- session_create c conn name ;;
                    if negb ok then free_offload_session c (Some id) conn false ;; ret None
                    else
                      f <- session_get_ifname c conn ;;
                      match f with
                      | None => free_offload_session c (Some id) conn true ;; ret None
                      | Some ifname =>
                          ok <- set_mtu ifname (c_mtu c n) ;;
                          if negb ok then free_offload_session c (Some id) conn true ;; ret None
                          else ret (Some (mk_session id conn ifname (c_mtu c n)))
                      end
                end
          end
      end
  end.

(** ** Peers *)

Definition get_peer (n : N) : M peer := fun s => Done (s_peers s n) s.
Definition put_peer (n : N) (p : peer) : M unit := put (fun s => set_peers (upd (s_peers s) n p) s).
Definition with_sock (k : option N) (p : peer) := mk_peer k (p_local p) (p_addr p) (p_est p) (p_off p).
Definition with_off (e : option session) (p : peer) := mk_peer (p_sock p) (p_local p) (p_addr p) (p_est p) e.

(** [free_socket], peer.c L170-184 *)
Definition free_socket (n : N) : M unit :=
  p <- get_peer n ;;
  match p_sock p with
  | None => ret tt
  | Some id =>
      s <- get ;;
      match s_heap s id with
      | None => fun _ => Wild
      | Some so =>
          match so_kind so with
          | Static => ret tt
          | Dynamic q => if q =? n then socket_close id else exit_bug
          | Offload _ => exit_bug
          end ;;
          put_peer n (with_sock None p)
      end
  end.

(** [reset_peer], peer.c L292-337 *)
Definition reset_peer (c : config) (n : N) : M unit :=
  free_socket n ;;
  p <- get_peer n ;;
  put_peer n (mk_peer (p_sock p) (0, 0) 0 false (p_off p)) ;;
  match p_off p with
  | Some e => free_session c e ;; p <- get_peer n ;; put_peer n (with_off None p)
  | None => ret tt
  end.

(** [fastd_peer_reset_socket], peer.c L201-230; [v6] is the family of the address *)
Definition reset_socket (c : config) (n : N) (v6 : bool) (ip : option N) : M unit :=
  p <- get_peer n ;;
  if p_addr p =? 0 then free_socket n
  else
    s <- get ;;
    let dynamic := match p_sock p with
                   | None => true
                   | Some id => match s_heap s id with Some so => match so_kind so with Static => false | _ => true end | None => true end
                   end in
    if negb dynamic then ret tt
    else
      free_socket n ;;
      k <- (match (if v6 then c_default6 c else c_default4 c) with
            | Some d => ret (Some d)
            | None => socket_open c n ip
            end) ;;
      p <- get_peer n ;;
      put_peer n (with_sock k p).

(** [fastd_peer_set_established], peer.c L830-883; [off]: the method offloads *)
Definition set_established (c : config) (n : N) (off : bool) : M bool :=
  p <- get_peer n ;;
  (match p_off p with
   | Some e =>
       keep <- (if off then update_session p e else ret false) ;;
       if keep then ret tt
       else free_session c e ;; p <- get_peer n ;; put_peer n (with_off None p)
   | None => ret tt
   end) ;;
  p <- get_peer n ;;
  ok <- (match off, p_off p with
         | true, None =>
             o <- init_session c n p ;;
             match o with
             | None => ret false
             | Some e => p <- get_peer n ;; put_peer n (with_off (Some e) p) ;; ret true
             end
         | _, _ => ret true
         end) ;;
  if negb ok then ret false
  else p <- get_peer n ;; put_peer n (mk_peer (p_sock p) (p_local p) (p_addr p) true (p_off p)) ;; ret true.

(** The end of [fastd_peer_claim_address], peer.c L636-649 *)
Definition claim_address (n : N) (sk : option N) (local : option (N * N)) (remote : N) : M unit :=
  p <- get_peer n ;;
  put_peer n (mk_peer (p_sock p) (p_local p) remote (p_est p) (p_off p)) ;;
  (match sk with
   | None => ret tt
   | Some id =>
       s <- get ;;
       match s_heap s id with
       | None => fun _ => Wild
       | Some so =>
           match so_kind so with
           | Static =>
               if match p_sock p with Some k => k =? id | None => false end then ret tt
               else free_socket n ;; p <- get_peer n ;; put_peer n (with_sock (Some id) p)
           | _ => ret tt
           end
       end
   end) ;;
  match local with
  | None => ret tt
  | Some a => p <- get_peer n ;; put_peer n (mk_peer (p_sock p) a (p_addr p) (p_est p) (p_off p))
  end.

Definition accepts (so : sock) (a : N * N) : bool :=
  (so_port so =? snd a) && match so_ip so with Some ip => ip =? fst a | None => true end.

(** A packet from [remote] arrives at the address [local] on a socket, and finishes a
    handshake with peer [n], which is set up.  The packet goes to a socket bound to
    [local].  [ok]: the method can start a session (handshake.c L128).
    A socket opened for a peer is only used by the peer itself (receive.c L183-188;
    see SockModel.v for the exception). *)
Definition on_packet (c : config) (id : N) (local : N * N) (remote n : N) (off ok : bool) : M unit :=
  s <- get ;;
  match s_heap s id with
  | None => ret tt (* no such socket: nothing is received *)
  | Some so =>
      if negb (accepts so local) || (remote =? 0) then ret tt
      else
        let id' := match so_kind so with Offload par => par | _ => id end in
        match s_heap s id' with
        | None => fun _ => Stale (* [sock->peer] *)
        | Some so' =>
            if match so_kind so' with Dynamic q => negb (q =? n) | _ => false end then ret tt
            else
              claim_address n (Some id') (Some local) remote ;;
              if negb ok then reset_peer c n
              else
                r <- set_established c n off ;;
                if r then ret tt else reset_peer c n
        end
  end.

Inductive op :=
| OPacket (id : N) (local : N * N) (remote n : N) (off ok : bool)
| OHandshake (n remote : N) (v6 : bool) (ip : option N) (* [send_handshake] *)
| OReset (n : N)
| OOther (t : N) (ses : option N) (add : bool).          (* another program adds or removes a tunnel *)

Definition do_op (c : config) (o : op) : M unit :=
  match o with
  | OPacket id local remote n off ok => on_packet c id local remote n off ok
  | OHandshake n remote v6 ip =>
      p <- get_peer n ;;
      if p_est p then ret tt
      else claim_address n None None remote ;; reset_socket c n v6 ip
  | OReset n => reset_peer c n
  | OOther t ses true =>
      s <- get ;;
      if match find_tun t (s_tuns s) with Some _ => true | None => false end
         || match ses with Some m => (m =? 0) || name_used m (s_tuns s) | None => false end then ret tt
      else put (set_tuns (mk_tun t None (option_map (fun m => (m, default_mtu)) ses) :: s_tuns s))
  | OOther t _ false =>
      put (fun s => set_tuns (filter (fun x => negb ((t_id x =? t) && match t_fd x with None => true | _ => false end)) (s_tuns s)) s)
  end.
Fixpoint do_ops (c : config) (l : list op) : M unit :=
  match l with [] => ret tt | o :: r => do_op c o ;; do_ops c r end.

(** [fastd_socket_bind_all], socket.c L184-210 *)
Fixpoint bind_all (l : list (option N * N)) : M unit :=
  match l with
  | [] => ret tt
  | (ip, port) :: r => open_socket ip port Static ;; bind_all r
  end.

Definition start (answers : list N) (tuns : list tun) : st :=
  mk_st answers 0 1 [] tuns 0 [] 0 (fun _ => None) (fun _ => idle).
(** The process from the start, [binds] are the bind addresses *)
Definition run (c : config) (binds : list (option N * N)) (ops : list op) : M unit :=
  l2tp_init c ;; bind_all binds ;; do_ops c ops.
