(** What privileges the process should have. *)
From Verif Require Import Base BufferModel MethodModel AddrModel LexModel ConfigModel OptionsModel PrivModel.
Local Open Scope N_scope.

(** The process runs as these *)
Definition runs_as (uid gid : N) (k : cred) : Prop :=
  ruid k = uid /\ euid k = uid /\ suid k = uid /\ rgid k = gid /\ egid k = gid /\ sgid k = gid.
Definition same_ids (k k0 : cred) : Prop :=
  ruid k = ruid k0 /\ euid k = euid k0 /\ suid k = suid k0 /\ rgid k = rgid k0 /\ egid k = egid k0 /\ sgid k = sgid k0.
Definition has (set cap : N) : Prop := N.testbit set cap = true.
(** As after login or exec: one UID and one GID, and only permitted capabilities are effective *)
Definition plain (k : cred) : Prop :=
  runs_as (ruid k) (rgid k) k /\ forall cap, has (effective k) cap -> has (permitted k) cap.

(** The user and group of the configuration; without a user the one that has started the program.  A group of its own takes precedence over that of
    the user. *)
Definition target (S : sys) (c : conf) (k0 : cred) (uid gid : N) : Prop :=
  (match c_user c with None => uid = ruid k0 | Some u => exists g, s_user S u = Some (uid, g) end) /\
  (match c_group c with
   | Some g => s_group S g = Some gid
   | None => match c_user c with None => gid = rgid k0 | Some u => exists x, s_user S u = Some (x, gid) end
   end).
Definition wants_user (c : conf) : Prop := c_user c <> None \/ c_group c <> None.
(** The supplementary groups: those of the user, or else only the configured group *)
Definition target_groups (S : sys) (c : conf) (gid : N) : list N := match c_user c with Some u => s_list S u gid | None => [gid] end.

(** * What is needed in the main loop *)

(** Sockets for which there is a bind address with a port exist from the start *)
Definition has_socket (c : conf) (six : bool) : Prop := exists b, bind_default c six = Some b /\ ba_dynamic b = false.
(** Interfaces may have to be created later *)
Definition new_ifaces (c : conf) : Prop :=
  c_mode c <> Tap /\ (c_persist c = false \/ (exists g, In g (c_groups c) /\ gc_dirs g <> []) \/ c_verify c <> None).
(** The capabilities that are retained *)
Definition retains (c : conf) (cap : N) : Prop :=
  (cap = NET_ADMIN /\ ((new_ifaces c /\ c_caps c <> CapsForce) \/ (c_mark c <> 0 /\ ~ has_socket c false /\ ~ has_socket c true) \/ c_offload c = true)) \/
  (cap = NET_BIND_SERVICE /\ c_offload c = true) \/
  (cap = NET_RAW /\ ((exists six b, bind_default c six = Some b /\ ba_dynamic b = true /\ ba_dev b <> None) \/ c_offload c = true)).

(** What the program may do later, and what the kernel requires for it: interfaces are created; a socket for a peer is opened for a family without one
    ([fastd_socket_open] and [bind_socket], socket.c), with a packet mark (SO_MARK), on a device (SO_BINDTODEVICE), on a privileged port *)
Inductive later (c : conf) : Type := NewIface | NewSocket (six : bool) (b : option bind_addr).
Arguments NewIface {c}.
Arguments NewSocket {c} six b.
Definition happens (c : conf) (l : later c) : Prop :=
  match l with
  | NewIface => new_ifaces c
  | NewSocket six b => ~ has_socket c six /\ b = bind_default c six /\ (b = None -> bind_default c (negb six) = None)
  end.
Definition port_number (h : bind_host) : N :=
  match (match h with BAny p => p | BAddr (AInet _ p) => p | BAddr (AInet6 _ p _ _) => p | BAddr _ => [] end) with [a; b] => 256 * a + b | _ => 0 end.
Definition requires (c : conf) (l : later c) (cap : N) : Prop :=
  match l with
  | NewIface => cap = NET_ADMIN
  | NewSocket _ b =>
      (cap = NET_ADMIN /\ c_mark c <> 0) \/
      (exists x, b = Some x /\ ((cap = NET_RAW /\ ba_dev x <> None /\ is_v6_ll (ba_addr x) = false) \/
         (cap = NET_BIND_SERVICE /\ 0 < port_number (ba_addr x) < 1024)))
  end.
(** The case that is not thought of: one family has a socket and the other one has none but may open one, with a packet mark *)
Definition mark_gap (c : conf) (l : later c) : Prop := match l with NewIface => False | NewSocket six _ => c_mark c <> 0 /\ has_socket c (negb six) end.

(** Whatever system calls are made, also by commands *)
Inductive calls : cred -> cred -> Prop :=
| calls_none k : calls k k
| calls_uid r e s k k1 k2 : setresuid r e s k = Some k1 -> calls k1 k2 -> calls k k2
| calls_gid r e s k k1 k2 : setresgid r e s k = Some k1 -> calls k1 k2 -> calls k k2
| calls_groups b l k k1 k2 : setgroups b l k = Some k1 -> calls k1 k2 -> calls k k2
| calls_caps p e i k k1 k2 : capset p e i k = Some k1 -> calls k1 k2 -> calls k k2
| calls_keep b k k2 : calls (with_keep b k) k2 -> calls k k2
| calls_exec k k2 : calls (exec k) k2 -> calls k k2.

(** The credentials when something happens *)
Definition switched (c : conf) (k0 : cred) (uid gid : N) (k : cred) : Prop := (wants_user c -> runs_as uid gid k) /\ (~ wants_user c -> same_ids k k0).
Definition drops_early (c : conf) : Prop := c_caps c = CapsEarly \/ c_caps c = CapsForce.
Definition as_at_event (S : sys) (c : conf) (k0 : cred) (uid gid : N) (e : event) (k : cred) : Prop :=
  match e with
  (* sockets are bound and the pre-up command is run as the user that has started the program, with the capabilities for that *)
  | EvBind | EvPreUp =>
      same_ids k k0 /\ supp k = supp k0 /\
      (s_caps S = true -> forall cap, cap = NET_ADMIN \/ cap = NET_BIND_SERVICE \/ cap = NET_RAW -> has (permitted k0) cap -> has (effective k) cap)
  | EvReady => same_ids k k0
  (* the status socket and the PID file are those of the configured user, if it may be changed to *)
  | EvStatus | EvPid =>
      ruid k = ruid k0 /\ suid k = suid k0 /\ rgid k = rgid k0 /\ sgid k = sgid k0 /\
      (wants_user c -> (has (effective k0) SETGID -> egid k = gid) /\ (has (effective k0) SETUID -> euid k = uid)) /\
      (~ wants_user c -> same_ids k k0)
  | EvUp => (drops_early c -> switched c k0 uid gid k) /\ (~ drops_early c -> same_ids k k0)
  | EvIface =>
      (c_mode c = Tap \/ ~ drops_early c -> same_ids k k0 /\ (s_caps S = true -> has (permitted k0) NET_ADMIN -> has (effective k) NET_ADMIN)) /\
      (c_mode c <> Tap -> drops_early c -> switched c k0 uid gid k /\ (s_caps S = true -> (has (effective k) NET_ADMIN <-> retains c NET_ADMIN)))
  | EvDirs => switched c k0 uid gid k
  end.
(** The order *)
Definition happenings (S : sys) (o : ost) : list event :=
  let c := o_conf o in
  (match c_status c with Some _ => [EvStatus] | None => [] end) ++
  [EvBind; EvPreUp] ++
  (match c_mode c with Tap => [EvIface] | _ => [] end) ++
  (match o_pid o with Some _ => [EvPid] | None => [] end) ++
  [EvReady] ++
  (match c_mode c with
   | Tap => [EvUp]
   | _ => if c_persist c then flat_map (fun p => if s_enabled S p then [EvIface; EvUp] else []) (rev (c_peers c)) else []
   end) ++
  [EvDirs].
