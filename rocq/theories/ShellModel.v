(** The environment of shell commands.  Source: src/shell.c, src/peer.c L23-124, the commands in src/fastd.c L178-202,
    on-connect in src/protocols/ec25519_fhmqvc/handshake.c L489-494, on-verify in src/verify.c, util.c L56-69 there and the lookup in src/peer_group.h.

    The texts of inet_ntop and if_indextoname are parameters.  setenv does not fail; fork, chdir and execl
    are not modelled. *)
From Verif Require Import Base BufferModel MethodModel NameModel AddrModel HexModel.
From Coq Require Import String.

Record libc := mk_libc {
  l_ntop4 : bytes -> bytes;
  l_ntop6 : bytes -> bytes;
  l_ifname : bytes -> option bytes (* if_indextoname of a scope id *)
}.

(** An environment, and an entry of fastd_shell_env_t: a value or NULL *)
Definition env := bytes -> option bytes.
Definition entry := (bytes * option bytes)%type.
Definition setenv (e : env) (k : bytes) (v : option bytes) : env := fun x => if bytes_eqb x k then v else e x.

(** The digits of printf's %u *)
Fixpoint dec_loop (fuel : nat) (n : N) (acc : bytes) : bytes :=
  match fuel with
  | O => acc
  | S f => let acc := (48 + n mod 10)%N :: acc in if (n / 10 =? 0)%N then acc else dec_loop f (n / 10) acc
  end.
Definition dec (n : N) : bytes := dec_loop 20 n [].

(** snprintf(buf, sizeof(buf), "%u", n) and the string in [buf] afterwards *)
Definition print_u (buf : cells) (n : N) : res cells := snprintf_s buf 0 (List.length buf) (dec n).

(** [fastd_shell_env_set], shell.c L40-43: entries are appended *)
Definition env_set (l : list entry) (k : bytes) (v : option bytes) : list entry := l ++ [(k, v)].

(** [fastd_shell_env_set_iface], shell.c L58-68; the MTU has 16 bits *)
Definition set_iface (l : list entry) (ifname : option bytes) (mtu : N) : res (list entry) :=
  let l := env_set l (str "INTERFACE") ifname in
  if negb (mtu =? 0)%N then
    do b <- print_u (repeat None 6) mtu; do s <- cstr b; Ok (env_set l (str "INTERFACE_MTU") (Some s))
  else Ok (env_set l (str "INTERFACE_MTU") None).

(** inet_ntop: fails, writing nothing, if there is no room *)
Definition inet_ntop (buf : cells) (t : bytes) : res cells :=
  if Nat.leb (List.length t + 1) (List.length buf) then put buf 0 (t ++ [0%N]) else Ok buf.

(** INET6_ADDRSTRLEN, IFNAMSIZ *)
Definition INET6_ADDRSTRLEN := 46.
Definition IFNAMSIZ := 16.

(** [fastd_peer_set_shell_env_addr], peer.c L24-58.  if_indextoname writes IFNAMSIZ bytes (as strncpy in glibc does). *)
Definition set_addr (L : libc) (l : list entry) (a : option saddr) (avar pvar : bytes) : res (list entry) :=
  let buf := repeat None (INET6_ADDRSTRLEN + IFNAMSIZ) in
  match a with
  | Some (AInet ip port) =>
      do b <- inet_ntop buf (l_ntop4 L ip);
      do s <- cstr b;
      let l := env_set l avar (Some s) in
      do b <- print_u b (be_val port);
      do s <- cstr b;
      Ok (env_set l pvar (Some s))
  | Some (AInet6 ip port _ scope) =>
      do b <- inet_ntop buf (l_ntop6 L ip);
      do b <- (if is_linklocal ip then
                 do s <- cstr b;
                 match l_ifname L scope with
                 | Some n =>
                     do b <- put b (List.length s + 1) (n ++ repeat 0%N (IFNAMSIZ - List.length n));
                     do s <- cstr b;
                     put b (List.length s) [37%N]
                 | None => Ok b
                 end
               else Ok b);
      do s <- cstr b;
      let l := env_set l avar (Some s) in
      do b <- print_u b (be_val port);
      do s <- cstr b;
      Ok (env_set l pvar (Some s))
  | _ => Ok (env_set (env_set l avar None) pvar None)
  end.

(** What is used of a peer: its name, the name and MTU of the offload or of its interface, its key *)
Record peer := mk_peer { p_name : option bytes; p_offload : option (bytes * N); p_iface : option (bytes * N); p_key : bytes }.

(** [fastd_protocol_ec25519_fhmqvc_set_shell_env], util.c L57-69 *)
Definition set_keys (l : list entry) (key : bytes) (p : option peer) : res (list entry) :=
  do b <- hexdump key; do s <- cstr b;
  let l := env_set l (str "LOCAL_KEY") (Some s) in
  match p with
  | Some p => do b <- hexdump (p_key p); do s <- cstr b; Ok (env_set l (str "PEER_KEY") (Some s))
  | None => Ok (env_set l (str "PEER_KEY") None)
  end.

(** [fastd_peer_set_shell_env], peer.c L62-84 *)
Definition set_peer (L : libc) (key : bytes) (l : list entry) (p : option peer) (local remote : option saddr) : res (list entry) :=
  let l := env_set l (str "PEER_NAME") (match p with Some p => p_name p | None => None end) in
  let '(ifname, mtu) :=
    match p with
    | Some p =>
        match p_offload p with
        | Some (n, m) => (Some n, m)
        | None => match p_iface p with Some (n, m) => (Some n, m) | None => (None, 0%N) end
        end
    | None => (None, 0%N)
    end in
  do l <- set_iface l ifname mtu;
  do l <- set_addr L l local (str "LOCAL_ADDRESS") (str "LOCAL_PORT");
  do l <- set_addr L l remote (str "PEER_ADDRESS") (str "PEER_PORT");
  set_keys l key p.

(** The commands.  [CUp] and [CDown]: on-up and on-down for the interface shared by all peers (fastd.c); [CPeerUp], [CPeerDown]: for
    the interface of one peer (peer.c).  on-connect has the local address of the packet, if it has a family, or else the one the socket is bound
    to, which may be NULL. *)
Inductive command :=
| CPreUp | CPostDown
| CUp (ifname : bytes) (mtu : N) | CDown (ifname : bytes) (mtu : N)
| CPeerUp (p : peer) | CPeerDown (p : peer)
| CConnect (p : option peer) (local bound : option saddr) (remote : saddr)
| CEstablish (p : peer) (local remote : saddr) | CDisestablish (p : peer) (local remote : saddr)
| CVerify (p : peer) (local remote : saddr).

(** local_addr && local_addr->sa.sa_family *)
Definition has_family (a : option saddr) : bool :=
  match a with Some AUnspec | None => false | Some _ => true end.

(** The entries passed to [shell_command_do_exec]; [None]: NULL *)
Definition entries (L : libc) (key : bytes) (c : command) : res (option (list entry)) :=
  match c with
  | CPreUp | CPostDown => Ok None
  | CUp n m | CDown n m => do l <- set_iface [] (Some n) m; Ok (Some l)
  | CPeerUp p | CPeerDown p => do l <- set_peer L key [] (Some p) None None; Ok (Some l)
  | CConnect p local bound remote =>
      do l <- set_peer L key [] p (if has_family local then local else bound) (Some remote); Ok (Some l)
  | CEstablish p local remote | CDisestablish p local remote | CVerify p local remote =>
      do l <- set_peer L key [] (Some p) (Some local) (Some remote); Ok (Some l)
  end.

(** [shell_command_setenv], shell.c L71-93 *)
Definition apply_entries (e : env) (l : list entry) : env := fold_left (fun e kv => setenv e (fst kv) (snd kv)) l e.
Definition command_env (pid : N) (l : option (list entry)) (e : env) : res env :=
  let e := setenv e (str "NOTIFY_SOCKET") None in
  do b <- print_u (repeat None 20) pid;
  do s <- cstr b;
  let e := setenv e (str "FASTD_PID") (Some s) in
  match l with
  | None => Ok e
  | Some l => Ok (apply_entries e l)
  end.

(** The environment in which the shell runs, [inherited] being that of fastd *)
Definition run_env (L : libc) (key : bytes) (pid : N) (c : command) (inherited : env) : res env :=
  do l <- entries L key c; command_env pid l inherited.

(** [fastd_peer_group_lookup], peer_group.h L56-64: the attribute in the group, its parent and so on; the root is the last *)
Fixpoint group_lookup {A : Type} (group : option A) (parents : list (option A)) : option A :=
  match parents with
  | [] => group
  | p :: r => match group with Some a => Some a | None => group_lookup p r end
  end.
