(** The privileges of the process from its start to the main loop: [configure_user] (config.c L400-466), capabilities.c, and fastd.c [init] with what
    it calls.  The credentials of the kernel follow credentials(7), capabilities(7) and security/commoncap.c, with the default securebits; sets of
    capabilities are bit masks.  A build for Linux with USE_USER, HAVE_SETRESUID and HAVE_SETRESGID. *)
From Verif Require Import Base BufferModel MethodModel AddrModel LexModel ConfigModel OptionsModel.
Local Open Scope N_scope.

Definition SETGID : N := 6.
Definition SETUID : N := 7.
Definition NET_BIND_SERVICE : N := 10.
Definition NET_ADMIN : N := 12.
Definition NET_RAW : N := 13.

(** * The kernel *)

Record cred := Cred {
  ruid : N; euid : N; suid : N;
  rgid : N; egid : N; sgid : N;
  supp : list N; (* supplementary groups *)
  permitted : N; effective : N; inheritable : N; bounding : N; ambient : N;
  keep : bool }. (* SECBIT_KEEP_CAPS *)
Definition with_uids (r e s : N) (k : cred) : cred :=
  Cred r e s (rgid k) (egid k) (sgid k) (supp k) (permitted k) (effective k) (inheritable k) (bounding k) (ambient k) (keep k).
Definition with_gids (r e s : N) (k : cred) : cred :=
  Cred (ruid k) (euid k) (suid k) r e s (supp k) (permitted k) (effective k) (inheritable k) (bounding k) (ambient k) (keep k).
Definition with_groups (l : list N) (k : cred) : cred :=
  Cred (ruid k) (euid k) (suid k) (rgid k) (egid k) (sgid k) l (permitted k) (effective k) (inheritable k) (bounding k) (ambient k) (keep k).
Definition with_caps (p e i a : N) (k : cred) : cred :=
  Cred (ruid k) (euid k) (suid k) (rgid k) (egid k) (sgid k) (supp k) p e i (bounding k) a (keep k).
Definition with_keep (b : bool) (k : cred) : cred :=
  Cred (ruid k) (euid k) (suid k) (rgid k) (egid k) (sgid k) (supp k) (permitted k) (effective k) (inheritable k) (bounding k) (ambient k) b.

Definition any_root (k : cred) : bool := (ruid k =? 0) || (euid k =? 0) || (suid k =? 0).
(** cap_emulate_setxuid *)
Definition fixup (old new : cred) : cred :=
  let new :=
    if any_root old && negb (any_root new)
    then (if keep new then with_caps (permitted new) (effective new) (inheritable new) 0 new else with_caps 0 0 (inheritable new) 0 new)
    else new in
  if (euid old =? 0) && negb (euid new =? 0) then with_caps (permitted new) 0 (inheritable new) (ambient new) new
  else if negb (euid old =? 0) && (euid new =? 0) then with_caps (permitted new) (permitted new) (inheritable new) (ambient new) new
  else new.
(** setresuid; None is EPERM.  An ID that is not to be changed is passed as it is, which is always allowed. *)
Definition may_uid (k : cred) (u : N) : bool := N.testbit (effective k) SETUID || (u =? ruid k) || (u =? euid k) || (u =? suid k).
Definition setresuid (r e s : N) (k : cred) : option cred :=
  if may_uid k r && may_uid k e && may_uid k s then Some (fixup k (with_uids r e s k)) else None.
Definition seteuid (e : N) (k : cred) : option cred := setresuid (ruid k) e (suid k) k.
Definition may_gid (k : cred) (g : N) : bool := N.testbit (effective k) SETGID || (g =? rgid k) || (g =? egid k) || (g =? sgid k).
Definition setresgid (r e s : N) (k : cred) : option cred :=
  if may_gid k r && may_gid k e && may_gid k s then Some (with_gids r e s k) else None.
Definition setegid (e : N) (k : cred) : option cred := setresgid (rgid k) e (sgid k) k.
(** setgroups; [allowed] is false in a user namespace that denies it *)
Definition setgroups (allowed : bool) (l : list N) (k : cred) : option cred :=
  if N.testbit (effective k) SETGID && allowed then Some (with_groups l k) else None.
(** capset; raising inheritable capabilities is left out *)
Definition subset (a b : N) : bool := N.ldiff a b =? 0.
Definition capset (p e i : N) (k : cred) : option cred :=
  if subset p (permitted k) && subset e p && subset i (inheritable k)
  then Some (with_caps p e i (N.land (ambient k) (N.land p i)) k) else None.
(** execve of a file without setuid bit and file capabilities *)
Definition exec (k : cred) : cred :=
  let root := (ruid k =? 0) || (euid k =? 0) in
  let p := if root then N.lor (inheritable k) (bounding k) else ambient k in
  Cred (ruid k) (euid k) (euid k) (rgid k) (egid k) (egid k) (supp k) p (if euid k =? 0 then p else ambient k) (inheritable k) (bounding k) (ambient k) false.

(** * The configuration *)

(** What the program asks the system for *)
Record sys := Sys {
  s_caps : bool; (* WITH_CAPABILITIES *)
  s_user : bytes -> option (N * N); (* getpwnam_r *)
  s_group : bytes -> option N; (* getgrnam_r *)
  s_list : bytes -> N -> list N; (* getgrouplist *)
  s_setgroups : bool;
  s_status : cred -> bool; (* creating the status socket *)
  s_bind : cred -> bool; (* binding all sockets *)
  s_iface : cred -> bool; (* opening an interface *)
  s_enabled : peer_conf -> bool }. (* check_peer *)

(** [configure_user]: UID, GID, and the supplementary groups, which are there whenever a user is configured, as getgrouplist always returns the group
    that it is given.  A failure of getpwnam_r or getgrnam_r is as if there were no entry. *)
Definition configure_user (S : sys) (c : conf) (k : cred) : option (N * N * option (list N)) :=
  match (match c_user c with None => Some (ruid k, rgid k) | Some u => s_user S u end) with
  | None => None
  | Some (uid, gid) =>
      match (match c_group c with None => Some gid | Some g => s_group S g end) with
      | None => None
      | Some gid => Some (uid, gid, match c_user c with Some u => Some (s_list S u gid) | None => None end)
      end
  end.
Definition switches (c : conf) : bool := match c_user c, c_group c with None, None => false | _, _ => true end.

(** [has_peer_group_peer_dirs], config.c; [fastd_allow_verify]; ctx.sock_default_v4 and _v6 ([init_sockets], fastd.c L135-165) *)
Definition has_dirs (c : conf) : bool := existsb (fun g => negb (match gc_dirs g with [] => true | _ => false end)) (c_groups c).
Definition allow_verify (c : conf) : bool := match c_verify c with Some _ => true | None => false end.
Definition bind_default (c : conf) (six : bool) : option bind_addr :=
  match (if six then c_default6 c else c_default4 c) with None => None | Some i => nth_error (rev (c_binds c)) i end.
Definition sock_default (c : conf) (six : bool) : bool := match bind_default c six with Some b => negb (ba_dynamic b) | None => false end.
Definition is_tap (c : conf) : bool := match c_mode c with Tap => true | _ => false end.
(** [fastd_config_persistent_ifaces], config.c L595-616 *)
Definition persistent_ifaces (c : conf) : bool := is_tap c || (c_persist c && negb (has_dirs c) && negb (allow_verify c)).
Definition is_force (c : conf) : bool := match c_caps c with CapsForce => true | _ => false end.
(** [need_cap_net_admin] and the like, capabilities.c L58-93 *)
Definition need_net_admin (c : conf) : bool :=
  (negb (persistent_ifaces c) && negb (is_force c)) ||
  (negb (sock_default c false || sock_default c true) && negb (c_mark c =? 0)) ||
  c_offload c.
Definition need_net_bind_service (c : conf) : bool := c_offload c.
Definition has_dev (o : option bind_addr) : bool := match o with Some b => match ba_dev b with Some _ => true | None => false end | None => false end.
Definition need_net_raw (c : conf) : bool :=
  (negb (sock_default c false) && has_dev (bind_default c false)) ||
  (negb (sock_default c true) && has_dev (bind_default c true)) ||
  c_offload c.
Definition bit (b : bool) (cap : N) : N := if b then 2 ^ cap else 0.

(** * The steps *)

(** What happens, with the credentials at that time *)
Inductive event : Set := EvStatus | EvBind | EvPreUp | EvIface | EvPid | EvReady | EvUp | EvDirs.
Definition steps : Type := cred -> list (event * cred) * option cred.
Definition andthen (m n : steps) : steps := fun k =>
  match m k with
  | (t, Some k) => let '(t', r) := n k in (t ++ t', r)
  | (t, None) => (t, None)
  end.
Notation "m >> n" := (andthen m n) (at level 61, right associativity).
Definition nothing : steps := fun k => ([], Some k).
Definition event_ (e : event) : steps := fun k => ([(e, k)], Some k).
Definition attempt (f : cred -> option cred) : steps := fun k => ([], Some (match f k with Some k => k | None => k end)). (* pr_debug_errno and the like *)
Definition must (f : cred -> option cred) : steps := fun k => ([], f k). (* exit_errno *)
Definition require (f : cred -> bool) : steps := fun k => ([], if f k then Some k else None).

Section Init.
Context (S : sys) (c : conf) (pid : bool) (uid gid : N) (gs : option (list N)).

(** [try_cap] and [fastd_cap_acquire], capabilities.c L24-56 and L109-122 *)
Definition try_cap (cap : N) : steps := fun k =>
  if N.testbit (effective k) cap then nothing k else attempt (fun k => capset (permitted k) (N.lor (effective k) (2 ^ cap)) (inheritable k) k) k.
Definition cap_acquire : steps :=
  if s_caps S then try_cap NET_ADMIN >> try_cap NET_BIND_SERVICE >> try_cap NET_RAW >> (fun k => ([], Some (with_keep true k))) else nothing.
(** [fastd_cap_reacquire_drop], L124-143 *)
Definition retained : N := N.lor (bit (need_net_admin c) NET_ADMIN) (N.lor (bit (need_net_bind_service c) NET_BIND_SERVICE) (bit (need_net_raw c) NET_RAW)).
Definition cap_drop : steps := if s_caps S then must (capset retained retained 0) else nothing.

(** Something done as the configured user, as in [write_pid] (fastd.c L234-280) and [fastd_status_init] (status.c L224-304) *)
Definition as_user (m : steps) : steps := fun k =>
  let u := euid k in
  let g := egid k in
  ((if switches c then attempt (setegid gid) >> attempt (seteuid uid) else nothing) >> m >> attempt (seteuid u) >> attempt (setegid g)) k.
Definition status_init : steps :=
  match c_status c with None => nothing | Some _ => as_user (event_ EvStatus >> require (s_status S)) end.
Definition write_pid : steps := if pid then as_user (event_ EvPid) else nothing.
(** [set_user], fastd.c L283-306 *)
Definition set_user : steps := if switches c then must (setresgid gid gid gid) >> must (setresuid uid uid uid) else nothing.
(** [set_groups], L309-323 *)
Definition set_groups : steps :=
  match gs with
  | Some l => attempt (setgroups (s_setgroups S) l)
  | None => if switches c then attempt (setgroups (s_setgroups S) [gid]) else nothing
  end.
Definition drop_caps : steps := set_user >> cap_drop.
Definition iface_open : steps := event_ EvIface >> require (s_iface S).
(** [fastd_configure_peers]: [setup_peer] opens the interfaces of the enabled peers that are configured statically (peer.c L408-424), and ends the
    program if that fails; the command is run if there is one *)
Definition configure_peers : steps :=
  if negb (is_tap c) && c_persist c
  then fold_right (fun p m => (if s_enabled S p then iface_open >> event_ EvUp else nothing) >> m) nothing (rev (c_peers c))
  else nothing.

(** [init], fastd.c L470-545, behind the configuration *)
Definition init_steps : steps :=
  cap_acquire >>
  status_init >>
  event_ EvBind >> require (s_bind S) >>
  event_ EvPreUp >>
  (if is_tap c then iface_open else nothing) >>
  set_groups >>
  write_pid >>
  (* the parent of a daemon ends successfully, systemd is notified *)
  event_ EvReady >>
  (match c_caps c with CapsEarly | CapsForce => drop_caps | _ => nothing end) >>
  (if is_tap c then event_ EvUp else nothing) >>
  configure_peers >>
  (match c_caps c with CapsOn => drop_caps | CapsOff => set_user | _ => nothing end) >>
  event_ EvDirs.
End Init.

(** The events until the main loop, and the credentials in it; None: the program has ended with an error *)
Definition init (S : sys) (o : ost) (k : cred) : list (event * cred) * option cred :=
  let c := o_conf o in
  match configure_user S c k with
  | None => ([], None)
  | Some (uid, gid, gs) => init_steps S c (match o_pid o with Some _ => true | None => false end) uid gid gs k
  end.
