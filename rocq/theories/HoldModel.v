(** The memory of the configuration and of the peers.  Source: src/config.c (default_config L49-60,
    fastd_config_method L70-82, fastd_config_ifname L85-104, fastd_config_bind_address L125-155,
    fastd_config_peer_group_push and _pop L158-176, free_peer_group L178-196, read_peer_dir L213-262,
    read_peer_dirs L265-281, fastd_config_add_peer_dir L284-299, fastd_config_read L302-398,
    configure_user L401-465, collect_methods, configure_methods and destroy_methods L489-533,
    fastd_config_release L702-737), src/config.y (the statements that allocate), src/shell.h L31-46,
    src/fastd.h L512-570 (string stacks), src/vector.h (VECTOR_ADD, VECTOR_FREE), src/lex.c L371-383,
    src/options.c (the options that set strings, and L113-127), src/peer.c (fastd_peer_handle_resolve
    L357-368, setup_peer L371-386, fastd_peer_free L450-468, delete_peer L471-486, fastd_peer_add
    L735-790) and src/protocols/ec25519_fhmqvc/handshake.c L547-566 (dynamic peers).

    An object is known by its number; numbers are given in the order of allocation and never again.
    The memory remembers what was given back, in order.  Giving back an object that was given back,
    an address inside of an object, or using a freed object or NULL is undefined behaviour.
    Simplified: contents are left out, except for the names of methods (a number, "null" is 0), the
    keys of peers (a number) and what the code compares to decide about memory; what a
    configuration file holds, and what users, directories and servers answer, is an arbitrary list
    of events.  Memory allocation does not fail (alloc.h ends the program).  The protocol states of
    peers are in ImplModel and NodeModel, interfaces in TunModel. *)
From Verif Require Import Base BufferModel.

Record mem := Mem { m_next : nat; m_freed : list nat }.
Definition mem_nat (p : nat) (l : list nat) : bool := existsb (Nat.eqb p) l.
Definition is_live (m : mem) (p : nat) : bool := (p <? m_next m)%nat && negb (mem_nat p (m_freed m)).
(** fastd_new, fastd_new0, fastd_alloc, strdup, get_current_dir_name, fopen, … *)
Definition malloc (m : mem) : nat * mem := (m_next m, Mem (S (m_next m)) (m_freed m)).
Definition mfree (p : option nat) (m : mem) : res mem :=
  match p with
  | None => Ok m
  | Some p => if is_live m p then Ok (Mem (m_next m) (m_freed m ++ [p])) else UB
  end.
Definition use (p : option nat) (m : mem) : res mem :=
  match p with
  | None => UB
  | Some p => if is_live m p then Ok m else UB
  end.
(** [fastd_strdup], alloc.h L130-139 *)
Definition strdup (given : bool) (m : mem) : option nat * mem :=
  if given then let (p, m) := malloc m in (Some p, m) else (None, m).

(** * String stacks, shell commands *)
Definition stack := list (nat * N).
(** [fastd_string_stack_contains], fastd.h L551-560 *)
Definition contains (l : stack) (n : N) : bool := existsb (fun e => (snd e =? n)%N) l.
(** [fastd_string_stack_free], fastd.h L563-569 *)
Fixpoint stack_free (l : stack) (m : mem) : res mem :=
  match l with
  | [] => Ok m
  | (p, _) :: r => do m <- use (Some p) m; do m <- mfree (Some p) m; stack_free r m
  end.

Record cmd := Cmd { c_command : option nat; c_dir : option nat }.
(** [fastd_shell_command_unset] and [fastd_shell_command_set], shell.h L31-46 *)
Definition cmd_unset (c : cmd) (m : mem) : res (cmd * mem) :=
  do m <- mfree (c_command c) m; do m <- mfree (c_dir c) m; Ok (Cmd None None, m).
Definition cmd_set (c : cmd) (m : mem) : res (cmd * mem) :=
  do r <- cmd_unset c m;
  let (p, m) := malloc (snd r) in let (q, m) := malloc m in Ok (Cmd (Some p) (Some q), m).
Fixpoint cmds_unset (l : list cmd) (m : mem) : res mem :=
  match l with [] => Ok m | c :: r => do cm <- cmd_unset c m; cmds_unset r (snd cm) end.

(** * Peer groups: the five commands are [on_up], [on_down], [on_connect], [on_establish] and
    [on_disestablish] *)
Inductive group := Grp (self : nat) (name : option nat) (dirs methods : stack) (cmds : list cmd) (children : list group).
Definition no_cmd : cmd := Cmd None None.
Definition new_group (self : nat) (name : option nat) : group := Grp self name [] [] (repeat no_cmd 5) [].
Definition g_self (g : group) : nat := match g with Grp p _ _ _ _ _ => p end.
Definition g_methods (g : group) : stack := match g with Grp _ _ _ l _ _ => l end.
(** [free_peer_group], config.c L178-196 *)
Fixpoint free_group (g : group) (m : mem) : res mem :=
  match g with
  | Grp self name dirs methods cmds children =>
      do m <- (fix go (l : list group) (m : mem) : res mem :=
                 match l with
                 | [] => Ok m
                 | c :: r => do m <- use (Some (g_self c)) m; do m <- free_group c m; go r m
                 end) children m;
      do m <- stack_free dirs m;
      do m <- stack_free methods m;
      do m <- cmds_unset cmds m;
      do m <- mfree name m;
      mfree (Some self) m
  end.

(** * Peers *)
(** [remote->addresses]: NULL, an array, or the address of [remote->address] in the vector *)
Inductive addrs := ANull | AHeap (p : nat) | AInner (vector : nat).
Definition free_addrs (a : addrs) (m : mem) : res mem :=
  match a with ANull => Ok m | AHeap p => mfree (Some p) m | AInner _ => UB end.
Record remote := Remote { r_host : option nat; r_addrs : addrs }.
Inductive cstate := CNew | CDisabled | CStatic | CDynamic.
Record peer := Peer {
  p_self : nat; p_name : option nat; p_key : option (nat * N); p_ifname : option nat;
  p_vec : option nat; p_remotes : list remote;
  p_group : option nat; p_src : option nat; p_cfg : cstate }.
Definition with_name p v := Peer (p_self p) v (p_key p) (p_ifname p) (p_vec p) (p_remotes p) (p_group p) (p_src p) (p_cfg p).
Definition with_key p v := Peer (p_self p) (p_name p) v (p_ifname p) (p_vec p) (p_remotes p) (p_group p) (p_src p) (p_cfg p).
Definition with_ifname p v := Peer (p_self p) (p_name p) (p_key p) v (p_vec p) (p_remotes p) (p_group p) (p_src p) (p_cfg p).
Definition with_remotes p v w := Peer (p_self p) (p_name p) (p_key p) (p_ifname p) v w (p_group p) (p_src p) (p_cfg p).
Definition with_cfg p v := Peer (p_self p) (p_name p) (p_key p) (p_ifname p) (p_vec p) (p_remotes p) (p_group p) (p_src p) v.

(** [fastd_peer_free], peer.c L450-468 *)
Fixpoint free_remotes (vec : option nat) (l : list remote) (m : mem) : res mem :=
  match l with
  | [] => Ok m
  | r :: l =>
      do m <- use vec m;
      do m <- (match r_host r with
               | Some h => do m <- free_addrs (r_addrs r) m; mfree (Some h) m
               | None => Ok m
               end);
      free_remotes vec l m
  end.
Definition peer_free (p : peer) (m : mem) : res mem :=
  do m <- use (Some (p_self p)) m;
  do m <- mfree (option_map fst (p_key p)) m;
  do m <- free_remotes (p_vec p) (p_remotes p) m;
  do m <- mfree (p_vec p) m;
  do m <- mfree (p_ifname p) m;
  do m <- mfree (p_name p) m;
  mfree (Some (p_self p)) m.

(** * The state *)
Record baddr := Baddr { b_self : nat; b_dev : option nat }.
Record hold := Hold {
  h_mem : mem;
  h_files : list (list nat * list nat);  (** the files being read: [strings], and the other objects of
                                             [fastd_config_read] in the order they are given back *)
  h_open : list group;         (** the peer groups that are open, the innermost first; the last is
                                   [conf.peer_group].  In the code a group is among its parent's children
                                   from its start on; here it joins them when it is closed. *)
  h_peer : option peer;        (** the peer that is being defined *)
  h_peers : list peer;         (** [ctx.peers] *)
  h_strs : list (option nat);  (** [status_socket], [user], [group], [ifname], [secret],
                                   [log_syslog_ident], [pid_file] *)
  h_cmds : list cmd;           (** [on_pre_up], [on_post_down], [on_verify] *)
  h_vgroup : option nat;       (** [conf.on_verify_group] *)
  h_binds : list baddr; h_def4 : option nat; h_def6 : option nat;
  h_groups : option nat;       (** [conf.groups] *)
  h_proto : option nat;        (** [conf.protocol_config] *)
  h_mlist : stack;             (** [conf.method_list] *)
  h_marr : option nat;         (** [conf.methods] *)
  h_methods : list (nat * option nat) (** its entries: [name] and [method] *) }.
Definition set_mem s v := Hold v (h_files s) (h_open s) (h_peer s) (h_peers s) (h_strs s) (h_cmds s) (h_vgroup s) (h_binds s) (h_def4 s) (h_def6 s) (h_groups s) (h_proto s) (h_mlist s) (h_marr s) (h_methods s).
Definition set_files s v m := Hold m v (h_open s) (h_peer s) (h_peers s) (h_strs s) (h_cmds s) (h_vgroup s) (h_binds s) (h_def4 s) (h_def6 s) (h_groups s) (h_proto s) (h_mlist s) (h_marr s) (h_methods s).
Definition set_open s v m := Hold m (h_files s) v (h_peer s) (h_peers s) (h_strs s) (h_cmds s) (h_vgroup s) (h_binds s) (h_def4 s) (h_def6 s) (h_groups s) (h_proto s) (h_mlist s) (h_marr s) (h_methods s).
Definition set_peer s v m := Hold m (h_files s) (h_open s) v (h_peers s) (h_strs s) (h_cmds s) (h_vgroup s) (h_binds s) (h_def4 s) (h_def6 s) (h_groups s) (h_proto s) (h_mlist s) (h_marr s) (h_methods s).
Definition set_peers s v m := Hold m (h_files s) (h_open s) (h_peer s) v (h_strs s) (h_cmds s) (h_vgroup s) (h_binds s) (h_def4 s) (h_def6 s) (h_groups s) (h_proto s) (h_mlist s) (h_marr s) (h_methods s).
Definition set_strs s v m := Hold m (h_files s) (h_open s) (h_peer s) (h_peers s) v (h_cmds s) (h_vgroup s) (h_binds s) (h_def4 s) (h_def6 s) (h_groups s) (h_proto s) (h_mlist s) (h_marr s) (h_methods s).
Definition set_cmds s v w m := Hold m (h_files s) (h_open s) (h_peer s) (h_peers s) (h_strs s) v w (h_binds s) (h_def4 s) (h_def6 s) (h_groups s) (h_proto s) (h_mlist s) (h_marr s) (h_methods s).
Definition set_binds s v d4 d6 m := Hold m (h_files s) (h_open s) (h_peer s) (h_peers s) (h_strs s) (h_cmds s) (h_vgroup s) v d4 d6 (h_groups s) (h_proto s) (h_mlist s) (h_marr s) (h_methods s).
Definition set_config s g pr l a ms m := Hold m (h_files s) (h_open s) (h_peer s) (h_peers s) (h_strs s) (h_cmds s) (h_vgroup s) (h_binds s) (h_def4 s) (h_def6 s) g pr l a ms.

(** [default_config], config.c L49-60 *)
Definition start : hold :=
  let (i, m) := malloc (Mem 0 []) in
  let (g, m) := malloc m in
  let (n, m) := malloc m in
  Hold m [] [new_group g (Some n)] None []
       [None; None; None; None; None; Some i; None] (repeat no_cmd 3) None [] None None None None [] None [].

(** Replacing and deleting the element at an index *)
Definition put {A} (i : nat) (x : A) (l : list A) : list A := firstn i l ++ x :: skipn (S i) l.
Definition del {A} (i : nat) (l : list A) : list A := firstn i l ++ skipn (S i) l.

(** * Statements and options *)
(** [free(conf.x); conf.x = fastd_strdup(…)]: config.y (user, group, secret, status socket, log to syslog as),
    config.c L103-104 (interface), options.c (pid file, status socket, user, group, interface) *)
Definition do_str (k : nat) (s : hold) : res hold :=
  match nth_error (h_strs s) k with
  | None => Ok s
  | Some old =>
      do m <- mfree old (h_mem s);
      let (p, m) := malloc m in Ok (set_strs s (put k (Some p) (h_strs s)) m)
  end.
(** on pre-up, on post-down (config.y, options.c); on verify also sets the group, config.y L597-601 *)
Definition do_cmd (k : nat) (s : hold) : res hold :=
  match nth_error (h_cmds s) k with
  | None => Ok s
  | Some c =>
      do r <- cmd_set c (h_mem s);
      Ok (set_cmds s (put k (fst r) (h_cmds s))
            (if (k =? 2)%nat then option_map g_self (hd_error (h_open s)) else h_vgroup s) (snd r))
  end.
(** on up, on down, on connect, on establish, on disestablish: config.y, options.c *)
Definition do_gcmd (k : nat) (s : hold) : res hold :=
  match h_open s with
  | Grp self name dirs ms cmds ch :: rest =>
      match nth_error cmds k with
      | None => Ok s
      | Some c =>
          do m <- use (Some self) (h_mem s);
          do r <- cmd_set c m;
          Ok (set_open s (Grp self name dirs ms (put k (fst r) cmds) ch :: rest) (snd r))
      end
  | [] => Ok s
  end.
(** [fastd_config_bind_address], config.c L125-155: [v4], [v6] tell that the address family is not IPv6, not
    IPv4; [d4], [d6] are the flags *)
Definition do_bind (v4 v6 dev d4 d6 : bool) (s : hold) : hold :=
  let (p, m) := malloc (h_mem s) in
  let (d, m) := strdup dev m in
  set_binds s (Baddr p d :: h_binds s)
    (if v4 && (d4 || match h_def4 s with None => true | Some _ => false end) then Some p else h_def4 s)
    (if v6 && (d6 || match h_def6 s with None => true | Some _ => false end) then Some p else h_def6 s) m.
(** [fastd_config_peer_group_push] and [_pop], config.c L158-176 *)
Definition do_push (s : hold) : hold :=
  let (g, m) := malloc (h_mem s) in
  let (n, m) := malloc m in
  set_open s (new_group g (Some n) :: h_open s) m.
Definition do_pop (s : hold) : hold :=
  match h_open s with
  | g :: Grp self name dirs ms cmds ch :: rest =>
      set_open s (Grp self name dirs ms cmds (g :: ch) :: rest) (h_mem s)
  | _ => s
  end.
(** [fastd_config_method], config.c L70-82 *)
Definition do_method (n : N) (s : hold) : res hold :=
  match h_open s with
  | Grp self name dirs ms cmds ch :: rest =>
      do m <- use (Some self) (h_mem s);
      if contains ms n then Ok s
      else let (p, m) := malloc m in
           Ok (set_open s (Grp self name dirs (ms ++ [(p, n)]) cmds ch :: rest) m)
  | [] => Ok s
  end.
(** [fastd_config_add_peer_dir], config.c L284-299: [ok] is whether the directory can be entered *)
Definition do_dir (ok : bool) (s : hold) : res hold :=
  match h_open s with
  | Grp self name dirs ms cmds ch :: rest =>
      let (oldcwd, m) := malloc (h_mem s) in
      if ok then
        let (newdir, m) := malloc m in
        do m <- use (Some self) m;
        let (p, m) := malloc m in
        do m <- mfree (Some newdir) m;
        do m <- mfree (Some oldcwd) m;
        Ok (set_open s (Grp self name ((p, 0%N) :: dirs) ms cmds ch :: rest) m)
      else
        do m <- mfree (Some oldcwd) m; Ok (set_mem s m)
  | [] => Ok s
  end.

(** * Reading files: [fastd_config_read], config.c L302-398.  [named]: there is a file name (the
    configuration is not read from the standard input); [found]: the file can be opened.  The objects other than
    [strings] are kept in the order in which L384-395 give them back: [lex], [ps], [filename2], [oldcwd], [file]. *)
Definition do_file (named found : bool) (s : hold) : hold :=
  let (oldcwd, m) := malloc (h_mem s) in
  let (ps, m) := malloc m in
  let opened := negb named || found in
  let (file, m) := strdup (named && found) m in
  let (lex, m) := strdup opened m in
  let (filename2, m) := strdup (named && found) m in
  let some o := match o with Some p => [p] | None => [] end in
  set_files s (([], some lex ++ [ps] ++ some filename2 ++ [oldcwd] ++ some file) :: h_files s) m.
(** A token is read: a string joins the list, config.c L371-374; its buffer is given back, lex.c L242-272 *)
Definition do_string (s : hold) : res hold :=
  match h_files s with
  | (strings, objs) :: rest =>
      let (buf, m) := malloc (h_mem s) in
      let (p, m) := malloc m in
      do m <- mfree (Some buf) m;
      Ok (set_files s ((p :: strings, objs) :: rest) m)
  | [] => Ok s
  end.
(** A number, an address or a keyword is read: [get_token] and [free], lex.c L352-415 *)
Definition do_token (s : hold) : res hold :=
  let (token, m) := malloc (h_mem s) in do m <- mfree (Some token) m; Ok (set_mem s m).
Fixpoint free_list (l : list nat) (m : mem) : res mem :=
  match l with [] => Ok m | p :: r => do m <- mfree (Some p) m; free_list r m end.
(** The end of a file, config.c L380-395 *)
Definition do_endfile (s : hold) : res hold :=
  match h_files s with
  | (strings, objs) :: rest =>
      do m <- stack_free (map (fun p => (p, 0%N)) strings) (h_mem s);
      do m <- free_list objs m;
      Ok (set_files s rest m)
  | [] => Ok s
  end.

(** * Peers *)
(** The directories of peer groups, with their groups *)
Fixpoint group_dirs (g : group) : list (nat * nat) :=
  match g with
  | Grp self _ dirs _ _ ch =>
      map (fun d => (self, fst d)) dirs ++ (fix go (l : list group) := match l with [] => [] | c :: r => group_dirs c ++ go r end) ch
  end.
Definition blank (self : nat) (name : option nat) (g src : option nat) : peer :=
  Peer self name None None None [] g src CNew.
(** A peer section or an included peer, config.y L433-437 and L609-611, options.c L114 *)
Definition do_peer (named : bool) (s : hold) : hold :=
  match h_peer s with
  | Some _ => s
  | None =>
      let (p, m) := malloc (h_mem s) in
      let (n, m) := strdup named m in
      set_peer s (Some (blank p n (option_map g_self (hd_error (h_open s))) None)) m
  end.
(** A file in a directory, config.c L246-248; [g] is the group, [d] the entry of its [peer_dirs] *)
Definition do_peerfile (g d : nat) (s : hold) : hold :=
  match h_peer s with
  | Some _ => s
  | None =>
      if existsb (fun e => (fst e =? g)%nat && (snd e =? d)%nat) (flat_map group_dirs (h_open s)) then
        let (p, m) := malloc (h_mem s) in
        let (n, m) := malloc m in
        set_peer s (Some (blank p (Some n) (Some g) (Some d))) m
      else s
  end.
(** key, config.y L514-517, with [protocol_read_key], ec25519_fhmqvc.c L62-75; [None] is a key that is not valid *)
Definition do_key (k : option N) (s : hold) : res hold :=
  match h_peer s with
  | Some p =>
      do m <- mfree (option_map fst (p_key p)) (h_mem s);
      let (o, m) := malloc m in
      match k with
      | Some k => Ok (set_peer s (Some (with_key p (Some (o, k)))) m)
      | None => do m <- mfree (Some o) m; Ok (set_peer s (Some (with_key p None)) m)
      end
  | None => Ok s
  end.
(** remote, config.y L458-506; growing the vector may move it *)
Definition do_remote (host : bool) (s : hold) : res hold :=
  match h_peer s with
  | Some p =>
      let (h, m) := strdup host (h_mem s) in
      do m <- mfree (p_vec p) m;
      let (v, m) := malloc m in
      Ok (set_peer s (Some (with_remotes p (Some v) (p_remotes p ++ [Remote h ANull]))) m)
  | None => Ok s
  end.
(** interface, config.y L519-527 *)
Definition do_ifname (s : hold) : res hold :=
  match h_peer s with
  | Some p =>
      do m <- mfree (p_ifname p) (h_mem s);
      let (i, m) := malloc m in
      Ok (set_peer s (Some (with_ifname p (Some i))) m)
  | None => Ok s
  end.

Definition key_is (k : N) (p : peer) : bool := match p_key p with Some (_, k') => (k' =? k)%N | None => false end.
Fixpoint find_key (k : N) (l : list peer) : option nat :=
  match l with
  | [] => None
  | p :: r => if key_is k p then Some 0%nat else option_map S (find_key k r)
  end.
(** [delete_peer], peer.c L471-486 *)
Definition delete_peer (i : nat) (l : list peer) (m : mem) : res (list peer * mem) :=
  match nth_error l i with
  | None => Bug                      (* peer_index: exit_bug *)
  | Some p => do m <- peer_free p m; Ok (del i l, m)
  end.
(** [fastd_peer_add], peer.c L735-790; [same] is the result of [peer_configs_equal] *)
Definition peer_add (same : bool) (p : peer) (l : list peer) (m : mem) : res (bool * list peer * mem) :=
  match p_key p with
  | None => do m <- peer_free p m; Ok (false, l, m)
  | Some (_, k) =>
      match find_key k l with
      | None => Ok (true, l ++ [p], m)
      | Some i =>
          match nth_error l i with
          | None => UB
          | Some other =>
              match p_cfg p with
              | CNew =>
                  match p_cfg other with
                  | CNew | CDisabled =>
                      do m <- peer_free p m; Ok (false, put i (with_cfg other CDisabled) l, m)
                  | CStatic =>
                      if same then
                        do m <- mfree (p_name other) m;
                        let other := with_name other (p_name p) in
                        do m <- peer_free (with_name p None) m;
                        Ok (true, put i (with_cfg other CNew) l, m)
                      else
                        do r <- delete_peer i l m; Ok (true, fst r ++ [p], snd r)
                  | CDynamic => do r <- delete_peer i l m; Ok (true, fst r ++ [p], snd r)
                  end
              | _ => Bug
              end
          end
      end
  end.
(** The end of a peer's definition: config.y L440-445 and L616-619, options.c L119-120, config.c L255 *)
Definition do_add (same : bool) (s : hold) : res hold :=
  match h_peer s with
  | None => Ok s
  | Some p =>
      do r <- peer_add same p (h_peers s) (h_mem s);
      let '(ok, l, m) := r in
      if negb ok && match p_src p with None => true | Some _ => false end then Fatal
      else Ok (set_peers (set_peer s None m) l m)
  end.
(** A file of a directory cannot be read, config.c L250-253 *)
Definition do_drop (s : hold) : res hold :=
  match h_peer s with
  | None => Ok s
  | Some p =>
      match p_src p with
      | None => Fatal
      | Some _ => do m <- peer_free p (h_mem s); Ok (set_peer s None m)
      end
  end.
(** The state of a peer changes while the configuration is loaded: peer.c, config.c L544-560, L680-700 *)
Definition do_cfg (i : nat) (c : cstate) (s : hold) : hold :=
  match nth_error (h_peers s) i with
  | Some p => set_peers s (put i (with_cfg p c) (h_peers s)) (h_mem s)
  | None => s
  end.
(** [fastd_peer_delete]: peers that are gone from the directories, dynamic peers that were not verified, … *)
Definition do_delete (i : nat) (s : hold) : res hold :=
  match nth_error (h_peers s) i with
  | Some _ => do r <- delete_peer i (h_peers s) (h_mem s); Ok (set_peers s (fst r) (snd r))
  | None => Ok s
  end.
(** [setup_peer], peer.c L371-386 *)
Definition setup_remote (vec : option nat) (r : remote) : remote :=
  match r_host r, vec with
  | None, Some v => Remote None (AInner v)
  | _, _ => r
  end.
Definition do_setup (i : nat) (s : hold) : hold :=
  match nth_error (h_peers s) i with
  | Some p => set_peers s (put i (with_remotes p (p_vec p) (map (setup_remote (p_vec p)) (p_remotes p))) (h_peers s)) (h_mem s)
  | None => s
  end.
(** [fastd_peer_handle_resolve], peer.c L357-368, for an answer about the [j]th remote of a peer: only the host
    names of remotes are resolved, peer.c L430 and L973 *)
Definition do_resolve (i j : nat) (s : hold) : res hold :=
  match nth_error (h_peers s) i with
  | Some p =>
      match nth_error (p_remotes p) j with
      | Some (Remote (Some h) a) =>
          do m <- use (p_vec p) (h_mem s);
          do m <- free_addrs a m;
          let (q, m) := malloc m in
          Ok (set_peers s (put i (with_remotes p (p_vec p) (put j (Remote (Some h) (AHeap q)) (p_remotes p))) (h_peers s)) m)
      | _ => Ok s
      end
  | None => Ok s
  end.
(** A dynamic peer, handshake.c L536-566; it is made when no peer has the key and on verify is set; [may] is the result of
    [fastd_peer_may_connect] *)
Definition do_dynamic (k : N) (may : bool) (s : hold) : res hold :=
  match h_vgroup s, find_key k (h_peers s) with
  | Some g, None =>
      let (p, m) := malloc (h_mem s) in
      let (o, m) := malloc m in
      let pe := Peer p None (Some (o, k)) None None [] (Some g) None CDynamic in
      if may then
        do r <- peer_add false pe (h_peers s) m;
        let '(ok, l, m) := r in
        if ok then Ok (set_peers s l m) else Bug
      else do m <- peer_free pe m; Ok (set_mem s m)
  | _, _ => Ok s
  end.

(** * The end of the configuration *)
(** [collect_methods], config.c L489-502 *)
Fixpoint collect_names (ns : stack) (l : stack) (m : mem) : stack * mem :=
  match ns with
  | [] => (l, m)
  | (_, n) :: r =>
      if contains l n then collect_names r l m
      else let (p, m) := malloc m in collect_names r ((p, n) :: l) m
  end.
Fixpoint collect (g : group) (l : stack) (m : mem) : stack * mem :=
  match g with
  | Grp _ _ _ ms _ ch =>
      let (l, m) := collect_names ms l m in
      (fix go (ch : list group) (l : stack) (m : mem) : stack * mem :=
         match ch with [] => (l, m) | c :: r => let (l, m) := collect c l m in go r l m end) ch l m
  end.
(** [fastd_method_create_by_name]: every provider but "null" allocates *)
Fixpoint create (l : stack) (m : mem) : list (nat * option nat) * mem :=
  match l with
  | [] => ([], m)
  | (p, n) :: r =>
      let (o, m) := strdup (negb (n =? 0)%N) m in
      let (es, m) := create r m in ((p, o) :: es, m)
  end.
(** [fastd_config_check], config.c: [configure_user] (L401-465; [sup]: there are supplementary groups), the protocol's
    configuration and [configure_methods] (L506-523).  All groups are closed. *)
Definition do_configure (sup : bool) (s : hold) : hold :=
  match h_marr s, h_open s with
  | None, [root] =>
      let (gs, m) := strdup sup (h_mem s) in
      let (pr, m) := malloc m in
      let (l, m) := collect root [] m in
      let (arr, m) := malloc m in
      let (es, m) := create l m in
      set_config s gs (Some pr) l (Some arr) es m
  | _, _ => s
  end.

(** [destroy_methods], config.c L526-533 *)
Fixpoint destroy_entries (arr : option nat) (l : list (nat * option nat)) (m : mem) : res mem :=
  match l with
  | [] => use arr m
  | (_, o) :: r => do m <- use arr m; do m <- mfree o m; destroy_entries arr r m
  end.
Fixpoint free_binds (l : list baddr) (m : mem) : res mem :=
  match l with
  | [] => Ok m
  | b :: r => do m <- use (Some (b_self b)) m; do m <- mfree (b_dev b) m; do m <- mfree (Some (b_self b)) m; free_binds r m
  end.
Fixpoint free_opts (l : list (option nat)) (m : mem) : res mem :=
  match l with [] => Ok m | p :: r => do m <- mfree p m; free_opts r m end.
(** [fastd_config_release], config.c L702-737.  The order of the frees at the end of L720-736 is that of
    [h_strs], with [groups] after [group] and [protocol_config] after [secret]. *)
Definition release (s : hold) : res mem :=
  do m <- free_binds (h_binds s) (h_mem s);
  do m <- (match h_open s with [root] => free_group root m | _ => UB end);
  do m <- destroy_entries (h_marr s) (h_methods s) m;
  do m <- mfree (h_marr s) m;
  do m <- stack_free (h_mlist s) m;
  do m <- cmds_unset (h_cmds s) m;
  do m <- free_opts (firstn 3 (h_strs s)) m;
  do m <- mfree (h_groups s) m;
  do m <- free_opts (firstn 2 (skipn 3 (h_strs s))) m;
  do m <- mfree (h_proto s) m;
  free_opts (skipn 5 (h_strs s)) m.
(** [delete_peers], fastd.c L603-610: the last peer first *)
Fixpoint delete_peers (fuel : nat) (l : list peer) (m : mem) : res mem :=
  match fuel with
  | O => Ok m
  | S f =>
      match l with
      | [] => Ok m
      | _ => do r <- delete_peer (length l - 1) l m; delete_peers f (fst r) (snd r)
      end
  end.
(** [cleanup], fastd.c L613-650: after the program's loop, when no file is being read *)
Definition finish (s : hold) : res mem :=
  do m <- delete_peers (length (h_peers s)) (h_peers s) (h_mem s);
  release (set_mem s m).

(** * Runs.  An event that cannot happen in a state (there is no peer being defined, …) leaves it alone. *)
Inductive event :=
| EStr (k : nat) | ECmd (k : nat) | EGroupCmd (k : nat) | EBind (v4 v6 dev d4 d6 : bool)
| EPush | EPop | EMethod (n : N) | EDir (ok : bool)
| EFile (named found : bool) | EString | EToken | EEndFile
| EPeer (named : bool) | EPeerFile (g d : nat) | EKey (k : option N) | ERemote (host : bool) | EIfname
| EAdd (same : bool) | EDrop
| EConfigure (sup : bool)
| ECfg (i : nat) (c : cstate) | EDelete (i : nat) | ESetup (i : nat) | EResolve (i j : nat)
| EDynamic (k : N) (may : bool).
Definition step (e : event) (s : hold) : res hold :=
  match e with
  | EStr k => do_str k s | ECmd k => do_cmd k s | EGroupCmd k => do_gcmd k s
  | EBind a b c d e => Ok (do_bind a b c d e s)
  | EPush => Ok (do_push s) | EPop => Ok (do_pop s)
  | EMethod n => do_method n s | EDir ok => do_dir ok s
  | EFile a b => Ok (do_file a b s) | EString => do_string s | EToken => do_token s | EEndFile => do_endfile s
  | EPeer n => Ok (do_peer n s) | EPeerFile g d => Ok (do_peerfile g d s)
  | EKey k => do_key k s | ERemote h => do_remote h s | EIfname => do_ifname s
  | EAdd same => do_add same s | EDrop => do_drop s
  | EConfigure sup => Ok (do_configure sup s)
  | ECfg i c => Ok (do_cfg i c s) | EDelete i => do_delete i s | ESetup i => Ok (do_setup i s)
  | EResolve i j => do_resolve i j s | EDynamic k may => do_dynamic k may s
  end.
Fixpoint run (es : list event) (s : hold) : res hold :=
  match es with
  | [] => Ok s
  | e :: r => do s <- step e s; run r s
  end.
