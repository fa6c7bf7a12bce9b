(** From the configuration to the start: [init_config] (fastd.c L419-459) with the special run modes, [fastd_config_verify] and [fastd_config_check]
    (config.c L544-622) with what they check, [protocol_init] (ec25519_fhmqvc.c L42-58), [generate_key] and [show_key] (util.c L25-61) of the protocol,
    and [fastd_random_bytes] (random.c L42-58).

    The methods are looked up as in NameModel, keys are read and written as in HexModel and computed as in KexModel, the user is looked up as in
    PrivModel, and the configuration is that of ConfigModel and OptionsModel. *)
From Verif Require Import Base BufferModel MethodModel AddrModel LexModel KexModel HexModel ConfigModel OptionsModel PrivModel.
From Verif Require NameModel.
From Coq Require Import String.

(** The build and the machine *)
Record host := Host {
  h_names : NameModel.env; (* ciphers and MACs *)
  h_methods : list NameModel.provider; (* the method providers of the build *)
  h_kex : kex;
  h_dynamic : bool; (* WITH_DYNAMIC_PEERS *)
  h_l2tp : bool; (* WITH_OFFLOAD_L2TP *)
  h_android : bool; (* fastd_use_android_integration *)
  h_random : option bytes; (* what is read from /dev/random; None if it cannot be opened or read *)
  h_sodium : bool; (* sodium_init succeeds, or the build is without libsodium *)
  h_sys : sys;
  h_cred : cred }.

(** * The groups *)

(** The groups with the parent [i]; a new group is put in front of the list [children] *)
Definition is_child (i : nat) (g : group_conf) : bool := match gc_parent g with Some p => Nat.eqb p i | None => false end.
Fixpoint child_from (k i : nat) (gs : list group_conf) : list nat :=
  match gs with [] => [] | g :: r => child_from (S k) i r ++ if is_child i g then [k] else [] end.
Definition children (gs : list group_conf) (i : nat) : list nat := child_from 0 i gs.
Definition at_group {A} (gs : list group_conf) (i : nat) (f : group_conf -> list A) : list A := match nth_error gs i with Some g => f g | None => [] end.
(** The tree at a group; the depth of the recursion is at most the number of groups *)
Fixpoint tree (n : nat) (gs : list group_conf) (i : nat) : NameModel.group :=
  match n with
  | O => NameModel.Group [] []
  | S n => NameModel.Group (at_group gs i gc_methods) (map (tree n gs) (children gs i))
  end.
Definition root_of (c : conf) : NameModel.group := tree (List.length (c_groups c)) (c_groups c) 0.
(** [has_peer_group_peer_dirs], config.c L199-210 *)
Fixpoint has_peer_dirs (n : nat) (gs : list group_conf) (i : nat) : bool :=
  match n with
  | O => false
  | S n => match at_group gs i gc_dirs with [] => existsb (has_peer_dirs n gs) (children gs i) | _ => true end
  end.

Section Boot.
Variable H : host.

Definition peer_dirs (c : conf) : bool := has_peer_dirs (List.length (c_groups c)) (c_groups c) 0.
(** fastd.h L604-621 *)
Definition verifies (c : conf) : bool := h_dynamic H && match c_verify c with Some _ => true | None => false end.
Definition offloads (c : conf) : bool := h_l2tp H && c_offload c.

(** [fastd_config_single_iface], config.c L581-592 *)
Definition single_iface (c : conf) : bool :=
  match c_mode c with
  | Tap => true
  | _ => if peer_dirs c then false else if verifies c then false else Nat.eqb (List.length (c_peers c)) 1
  end.
(** [config_check_base], config.c L547-564; false: exit_error *)
Definition check_base (c : conf) : bool :=
  (if h_android H then match c_mode c with Tun => single_iface c | _ => false end else true) &&
  (if offloads c then match c_mode c with Multitap => negb (c_persist c) | _ => false end else true).
(** [fastd_config_verify], config.c L619-622 *)
Definition config_verify (c : conf) : res (list (option NameModel.info)) :=
  if check_base c then NameModel.configure_methods (h_names H) (h_methods H) (root_of c) else Fatal.

(** What [fastd_config_check], config.c L566-578, sets *)
Record checked := Checked {
  k_conf : conf;
  k_uid : N;
  k_gid : N;
  k_groups : option (list N);
  k_table : list (option NameModel.info) }.
Definition config_check (c : conf) : res checked :=
  if negb (check_base c) then Fatal else
  if (match c_peers c with [] => true | _ => false end) && negb (peer_dirs c) && negb (verifies c) then Fatal else
  let c := match at_group (c_groups c) 0 gc_methods with
           | [] => update_group 0 (fun x => set_gc_methods (NameModel.config_method (gc_methods x) (NameModel.str "null")) x) c
           | _ => c
           end in
  match configure_user (h_sys H) c (h_cred H) with
  | None => Fatal
  | Some (uid, gid, gs) => do t <- NameModel.configure_methods (h_names H) (h_methods H) (root_of c); Ok (Checked c uid gid gs t)
  end.

(** * Keys *)

(** A key all of whose bytes have been written *)
Fixpoint all_set (k : NameModel.cells) : res bytes :=
  match k with [] => Ok [] | Some b :: r => do s <- all_set r; Ok (b :: s) | None :: _ => UB end.
(** [protocol_init] *)
Definition init_key (c : conf) : res keypair :=
  match c_secret c with
  | None => Fatal
  | Some s =>
      do k <- read_key s;
      match k with None => Fatal | Some k => do b <- all_set k; protocol_init (h_kex H) b end
  end.
(** [generate_key], util.c L26-49: what is printed *)
Definition generate_key (machine : bool) : res bytes :=
  match h_random H with
  | None => Fatal
  | Some r =>
      let secret := sanitize r in
      let public := public_of (h_kex H) secret in
      if machine then print_hexdump [] secret
      else do s <- print_hexdump (NameModel.str "Secret: ") secret; do p <- print_hexdump (NameModel.str "Public: ") public; Ok (s ++ p)
  end.
(** [show_key], util.c L52-57 *)
Definition show_key (machine : bool) (k : keypair) : res bytes := print_hexdump (if machine then [] else NameModel.str "Public: ") (kp_public k).

(** * The start *)

Inductive event := Out (text : bytes) | Signals | Daemonize | Chdir | InitLog.
Inductive outcome :=
| Exited (* exit(0) *)
| Failed (* exit(1) with a message *)
| Running (k : keypair) (x : checked) (* going on with [init] *)
| Broken. (* undefined behaviour *)
Definition trace := (list event * outcome)%type.
Definition after {A} (r : res A) (f : A -> trace) : trace :=
  match r with Ok a => f a | Fatal => ([], Failed) | _ => ([], Broken) end.
Definition emits (l : list event) (t : trace) : trace := (l ++ fst t, snd t).

(** [init_config]; of the two processes of [daemonize] the one that goes on *)
Definition init_config (o : ost) : trace :=
  let c := o_conf o in
  if o_verify o then after (config_verify c) (fun _ => ([], Exited)) else
  if o_generate o then after (generate_key (o_machine o)) (fun t => ([Out t], Exited)) else
  after (init_key c) (fun k =>
  if o_show o then after (show_key (o_machine o) k) (fun t => ([Out t], Exited)) else
  emits ([Signals] ++ (if o_daemon o then [Daemonize] else []) ++ [Chdir; InitLog])
    (if negb (h_sodium H) then ([], Failed) else after (config_check c) (fun x => ([], Running k x)))).
End Boot.

(** The program until then: [fastd_configure] and [init_config] *)
Definition boot (E : env) (B : obuild) (cwd : bytes) (H : host) (args : list bytes) : trace :=
  match configure E B cwd args with
  | Ok Exit0 => ([], Exited)
  | Ok (Run o) => init_config H o
  | Fatal => ([], Failed)
  | Bug | UB => ([], Broken)
  end.
