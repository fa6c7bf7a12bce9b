(** What a shell command finds in its environment. *)
From Verif Require Import Base BufferModel NameModel AddrModel HexSpec ShellModel.
From Coq Require Import String.

(** libc: the sizes of the texts (INET_ADDRSTRLEN 16, INET6_ADDRSTRLEN 46, IFNAMSIZ 16, each with the final zero) *)
Definition zero_free (s : bytes) : Prop := forall c, In c s -> c <> 0%N.
Definition libc_ok (L : libc) : Prop :=
  (forall ip, List.length (l_ntop4 L ip) <= 15 /\ zero_free (l_ntop4 L ip)) /\
  (forall ip, List.length (l_ntop6 L ip) <= 45 /\ zero_free (l_ntop6 L ip)) /\
  (forall i n, l_ifname L i = Some n -> List.length n <= 15 /\ zero_free n).

(** [s] is [n] in decimal *)
Definition dval (s : bytes) : N := fold_left (fun v c => 10 * v + (c - 48))%N s 0%N.
Definition decimal (s : bytes) (n : N) : Prop :=
  s <> [] /\ (forall c, In c s -> (48 <= c <= 57)%N) /\ dval s = n /\ (hd 0%N s = 48%N -> s = [48%N]).
(** [s] is the lower case hexadecimal text of [k] *)
Definition hex_of (s k : bytes) : Prop := spells s k /\ forall c, In c s -> ~ is_capital c.

(** A documented variable: unset, or with a value that satisfies something *)
Definition unset (v : option bytes) : Prop := v = None.
Definition is_text (t : option bytes) (v : option bytes) : Prop := v = t.
Definition is_num (n : N) (v : option bytes) : Prop := exists s, v = Some s /\ decimal s n.
Definition is_key (k : bytes) (v : option bytes) : Prop := exists s, v = Some s /\ hex_of s k.

(** an address: unset, dotted, or with colons and for link-local addresses the interface *)
Definition is_addr (L : libc) (a : option saddr) (v : option bytes) : Prop :=
  match a with
  | Some (AInet ip _) => v = Some (l_ntop4 L ip)
  | Some (AInet6 ip _ _ scope) =>
      v = Some (l_ntop6 L ip ++ (if is_linklocal ip then match l_ifname L scope with Some n => str "%" ++ n | None => [] end else []))
  | _ => v = None
  end.
Definition is_port (a : option saddr) (v : option bytes) : Prop :=
  match a with Some (AInet _ port) | Some (AInet6 _ port _ _) => is_num (be_val port) v | _ => v = None end.

(** the interface: of the peer's offload, or its own *)
Definition peer_iface (p : option peer) : option (bytes * N) :=
  match p with Some p => match p_offload p with Some i => Some i | None => p_iface p end | None => None end.
Definition is_mtu (i : option (bytes * N)) (v : option bytes) : Prop :=
  match i with Some (_, m) => if (m =? 0)%N then v = None else is_num m v | None => v = None end.

(** the variables of commands about the peer [p] ([None]: unknown) at given addresses *)
Definition peer_vars (L : libc) (key : bytes) (p : option peer) (local remote : option saddr) : list (string * (option bytes -> Prop)) :=
  [("INTERFACE", is_text (option_map fst (peer_iface p)));
   ("INTERFACE_MTU", is_mtu (peer_iface p));
   ("LOCAL_KEY", is_key key);
   ("LOCAL_ADDRESS", is_addr L local);
   ("LOCAL_PORT", is_port local);
   ("PEER_ADDRESS", is_addr L remote);
   ("PEER_PORT", is_port remote);
   ("PEER_NAME", is_text (match p with Some p => p_name p | None => None end));
   ("PEER_KEY", match p with Some p => is_key (p_key p) | None => unset end)]%string.

Definition vars (L : libc) (key : bytes) (c : command) : list (string * (option bytes -> Prop)) :=
  match c with
  | CPreUp | CPostDown => []
  | CUp n m | CDown n m => [("INTERFACE", is_text (Some n)); ("INTERFACE_MTU", is_mtu (Some (n, m)))]%string
  | CPeerUp p | CPeerDown p => peer_vars L key (Some p) None None
  | CConnect p local bound remote =>
      peer_vars L key p (match local with Some AUnspec | None => bound | _ => local end) (Some remote)
  | CEstablish p local remote | CDisestablish p local remote | CVerify p local remote =>
      peer_vars L key (Some p) (Some local) (Some remote)
  end.

(** [e] has these variables, fastd's process ID, no NOTIFY_SOCKET, and everything else from [inherited] *)
Definition env_is (pid : N) (vs : list (string * (option bytes -> Prop))) (inherited e : env) : Prop :=
  (forall k P, In (k, P) vs -> P (e (str k))) /\
  is_num pid (e (str "FASTD_PID")) /\
  e (str "NOTIFY_SOCKET") = None /\
  (forall x, ~ In x (str "FASTD_PID" :: str "NOTIFY_SOCKET" :: map (fun kp => str (fst kp)) vs) -> e x = inherited x).

(** the sizes of everything used by a command *)
Definition key_ok (k : bytes) : Prop := List.length k = 32 /\ wf_bytes k.
Definition peer_ok (p : peer) : Prop :=
  key_ok (p_key p) /\ (forall n m, p_offload p = Some (n, m) \/ p_iface p = Some (n, m) -> (m < 2 ^ 16)%N).
Definition addr_ok (a : option saddr) : Prop := match a with Some a => swf a | None => True end.
Definition command_ok (c : command) : Prop :=
  match c with
  | CPreUp | CPostDown => True
  | CUp _ m | CDown _ m => (m < 2 ^ 16)%N
  | CPeerUp p | CPeerDown p => peer_ok p
  | CConnect p local bound remote => (forall q, p = Some q -> peer_ok q) /\ addr_ok local /\ addr_ok bound /\ swf remote
  | CEstablish p local remote | CDisestablish p local remote | CVerify p local remote => peer_ok p /\ swf local /\ swf remote
  end.

(** the manual: set for all commands *)
Definition for_all_commands : list string := ["FASTD_PID"; "INTERFACE"; "INTERFACE_MTU"; "LOCAL_KEY"]%string.
