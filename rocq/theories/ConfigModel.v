(** The configuration parser: src/config.y, and from src/config.c [fastd_config_read] with what the actions of the
    grammar call.  The tokens are those of the lexer (LexModel).

    The grammar is given as a recursive descent over the tokens, with the actions where bison's parser performs them:
    as soon as the operands of a statement have been read (and, where an optional operand may follow, the token behind
    it), before the semicolon is.  A failed parse ([YYERROR], a syntax error or an error of the lexer) is [Ok None]; what it
    leaves behind is not described, as the caller exits or frees the peer.  [exit_error] is [Fatal].

    The file system is a function from the working directory and a name to contents; it does not change while the
    configuration is read, and [chdir] back to a directory that was left succeeds.  Memory is never exhausted.
    Log messages are left out. *)
From Verif Require Import Base BufferModel MethodModel AddrModel LexModel.
From Verif Require NameModel HexModel.
From Coq Require Import String Ascii.
Local Open Scope N_scope.

(** * Tokens *)

(** The keyword tokens, config.y L49-117 *)
Inductive kw : Set :=
| Kaddresses | Kany | Kas | Kasync | Kauto | Kbind | Kcapabilities | Kcipher | Kconnect | Kdebug | Kdebug2
| Kdefault | Kdisestablish | Kdown | Kdrop | Kearly | Kerror | Kestablish | Kfatal | Kfloat | Kforce | Kforward
| Kfrom | Kgroup | Khandshakes | Khide | Kinclude | Kinfo | Kinterface | Kip | Kipv4 | Kipv6 | Kkey | Kl2tp
| Klevel | Klimit | Klog | Kmac | Kmark | Kmethod | Kmode | Kmtu | Kmultitap | Kno | Koffload | Kon | Kpacket
| Kpeer | Kpeers | Kpersist | Kpmtu | Kport | Kpost_down | Kpre_up | Kprotocol | Kremote | Ksecret | Ksecure
| Ksocket | Kstatus | Kstderr | Ksync | Ksyslog | Ktap | Kto | Ktun | Kup | Kuse | Kuser | Kverbose | Kverify
| Kwarn | Kyes.
(** and the words of the table that stand for them, lex.c L44-118 *)
Definition word (k : kw) : bytes :=
  match k with
  | Kaddresses => w "addresses" | Kany => w "any" | Kas => w "as" | Kasync => w "async" | Kauto => w "auto" 
  | Kbind => w "bind" | Kcapabilities => w "capabilities" | Kcipher => w "cipher" | Kconnect => w "connect" 
  | Kdebug => w "debug" | Kdebug2 => w "debug2" | Kdefault => w "default" | Kdisestablish => w "disestablish" 
  | Kdown => w "down" | Kdrop => w "drop" | Kearly => w "early" | Kerror => w "error" | Kestablish => w "establish" 
  | Kfatal => w "fatal" | Kfloat => w "float" | Kforce => w "force" | Kforward => w "forward" | Kfrom => w "from" 
  | Kgroup => w "group" | Khandshakes => w "handshakes" | Khide => w "hide" | Kinclude => w "include" | Kinfo => w "info" 
  | Kinterface => w "interface" | Kip => w "ip" | Kipv4 => w "ipv4" | Kipv6 => w "ipv6" | Kkey => w "key" 
  | Kl2tp => w "l2tp" | Klevel => w "level" | Klimit => w "limit" | Klog => w "log" | Kmac => w "mac" | Kmark => w "mark" 
  | Kmethod => w "method" | Kmode => w "mode" | Kmtu => w "mtu" | Kmultitap => w "multitap" | Kno => w "no" 
  | Koffload => w "offload" | Kon => w "on" | Kpacket => w "packet" | Kpeer => w "peer" | Kpeers => w "peers" 
  | Kpersist => w "persist" | Kpmtu => w "pmtu" | Kport => w "port" | Kpost_down => w "post-down" | Kpre_up => w "pre-up" 
  | Kprotocol => w "protocol" | Kremote => w "remote" | Ksecret => w "secret" | Ksecure => w "secure" | Ksocket => w "socket" 
  | Kstatus => w "status" | Kstderr => w "stderr" | Ksync => w "sync" | Ksyslog => w "syslog" | Ktap => w "tap" 
  | Kto => w "to" | Ktun => w "tun" | Kup => w "up" | Kuse => w "use" | Kuser => w "user" | Kverbose => w "verbose" 
  | Kverify => w "verify" | Kwarn => w "warn" | Kyes => w "yes"
  end.
Definition kws : list kw :=
  [Kaddresses; Kany; Kas; Kasync; Kauto; Kbind; Kcapabilities; Kcipher; Kconnect; Kdebug; Kdebug2; Kdefault; 
   Kdisestablish; Kdown; Kdrop; Kearly; Kerror; Kestablish; Kfatal; Kfloat; Kforce; Kforward; Kfrom; Kgroup; 
   Khandshakes; Khide; Kinclude; Kinfo; Kinterface; Kip; Kipv4; Kipv6; Kkey; Kl2tp; Klevel; Klimit; Klog; 
   Kmac; Kmark; Kmethod; Kmode; Kmtu; Kmultitap; Kno; Koffload; Kon; Kpacket; Kpeer; Kpeers; Kpersist; Kpmtu; 
   Kport; Kpost_down; Kpre_up; Kprotocol; Kremote; Ksecret; Ksecure; Ksocket; Kstatus; Kstderr; Ksync; Ksyslog; 
   Ktap; Kto; Ktun; Kup; Kuse; Kuser; Kverbose; Kverify; Kwarn; Kyes].

Inductive tok : Type :=
| TEof | TErr (e : lex_error) | TChar (c : byte) | TStr (v : bytes) | TAddr6 (a : bytes) | TScoped (a ifname : bytes) | TAddr4 (a : bytes)
| TUint (n : N) | TKey (k : kw)
| TBad (w : bytes). (* a word that is none of the table; the lexer does not give it *)

(** The token of a lexeme, lex.c L432-447 *)
Definition tok_of (l : lexeme) : tok :=
  match l with
  | LEof => TEof
  | LError e => TErr e
  | LChar c => TChar c
  | LStr v => TStr v
  | LAddr6 a => TAddr6 a
  | LAddr6Scoped a i => TScoped a i
  | LAddr4 a => TAddr4 a
  | LUint n => TUint n
  | LKeyword v => match find (fun k => bytes_eqb (word k) v) kws with Some k => TKey k | None => TBad v end
  end.

(** * The configuration *)

Inductive mode : Set := Tap | Multitap | Tun.
Inductive caps : Set := CapsOff | CapsOn | CapsEarly | CapsForce.
(** Log levels but LL_UNSPEC, log.h L24-34 *)
Inductive level : Set := LFatal | LErr | LWarn | LInfo | LVerbose | LDebug | LDebug2.
Definition level_default : level := LVerbose.

(** fastd_shell_command_t, shell.h: the command, the directory to run it in and whether to wait for it *)
Record command := Command { cmd_text : bytes; cmd_dir : bytes; cmd_sync : bool }.

(** fastd_bind_address_t, fastd.h L144-149, with the flags of L139-141; [BAny] is AF_UNSPEC with a port *)
Inductive bind_host : Type := BAny (port : bytes) | BAddr (a : saddr).
Record bind_addr := Bind { ba_addr : bind_host; ba_dev : option bytes; ba_def4 : bool; ba_def6 : bool; ba_dynamic : bool }.

(** fastd_remote_t, peer.h L109-118, as the parser sets it: an address, or a host name with the address family and the port *)
Inductive family : Set := Inet | Inet6.
Inductive remote : Type := RAddr (a : saddr) | RHost (name : bytes) (af : option family) (port : bytes).

(** fastd_peer_t as far as the configuration sets it; [pc_group] is an index of the table of groups *)
Record peer_conf := PeerConf {
  pc_name : option bytes;
  pc_group : nat;
  pc_dir : option bytes; (* config_source_dir *)
  pc_key : option bytes;
  pc_remotes : list remote;
  pc_float : bool;
  pc_ifname : option bytes;
  pc_mtu : N }.
Definition set_pc_name (v : option bytes) (x : peer_conf) : peer_conf := PeerConf v (pc_group x) (pc_dir x) (pc_key x) (pc_remotes x) (pc_float x) (pc_ifname x) (pc_mtu x).
Definition set_pc_group (v : nat) (x : peer_conf) : peer_conf := PeerConf (pc_name x) v (pc_dir x) (pc_key x) (pc_remotes x) (pc_float x) (pc_ifname x) (pc_mtu x).
Definition set_pc_dir (v : option bytes) (x : peer_conf) : peer_conf := PeerConf (pc_name x) (pc_group x) v (pc_key x) (pc_remotes x) (pc_float x) (pc_ifname x) (pc_mtu x).
Definition set_pc_key (v : option bytes) (x : peer_conf) : peer_conf := PeerConf (pc_name x) (pc_group x) (pc_dir x) v (pc_remotes x) (pc_float x) (pc_ifname x) (pc_mtu x).
Definition set_pc_remotes (v : list remote) (x : peer_conf) : peer_conf := PeerConf (pc_name x) (pc_group x) (pc_dir x) (pc_key x) v (pc_float x) (pc_ifname x) (pc_mtu x).
Definition set_pc_float (v : bool) (x : peer_conf) : peer_conf := PeerConf (pc_name x) (pc_group x) (pc_dir x) (pc_key x) (pc_remotes x) v (pc_ifname x) (pc_mtu x).
Definition set_pc_ifname (v : option bytes) (x : peer_conf) : peer_conf := PeerConf (pc_name x) (pc_group x) (pc_dir x) (pc_key x) (pc_remotes x) (pc_float x) v (pc_mtu x).
Definition set_pc_mtu (v : N) (x : peer_conf) : peer_conf := PeerConf (pc_name x) (pc_group x) (pc_dir x) (pc_key x) (pc_remotes x) (pc_float x) (pc_ifname x) v.
Definition new_peer (name : option bytes) (g : nat) : peer_conf := PeerConf name g None None [] false None 0.

(** fastd_peer_group_t, peer_group.h; the groups form a table in the order of their creation, so that the list [children] of a group are
    the groups with this parent, the last one first *)
Record group_conf := GroupConf {
  gc_name : bytes;
  gc_parent : option nat;
  gc_limit : option N; (* max_connections; None is -1 *)
  gc_methods : list bytes;
  gc_dirs : list bytes; (* peer_dirs, the last one first *)
  gc_up : option command;
  gc_down : option command;
  gc_connect : option command;
  gc_establish : option command;
  gc_disestablish : option command }.
Definition set_gc_name (v : bytes) (x : group_conf) : group_conf := GroupConf v (gc_parent x) (gc_limit x) (gc_methods x) (gc_dirs x) (gc_up x) (gc_down x) (gc_connect x) (gc_establish x) (gc_disestablish x).
Definition set_gc_parent (v : option nat) (x : group_conf) : group_conf := GroupConf (gc_name x) v (gc_limit x) (gc_methods x) (gc_dirs x) (gc_up x) (gc_down x) (gc_connect x) (gc_establish x) (gc_disestablish x).
Definition set_gc_limit (v : option N) (x : group_conf) : group_conf := GroupConf (gc_name x) (gc_parent x) v (gc_methods x) (gc_dirs x) (gc_up x) (gc_down x) (gc_connect x) (gc_establish x) (gc_disestablish x).
Definition set_gc_methods (v : list bytes) (x : group_conf) : group_conf := GroupConf (gc_name x) (gc_parent x) (gc_limit x) v (gc_dirs x) (gc_up x) (gc_down x) (gc_connect x) (gc_establish x) (gc_disestablish x).
Definition set_gc_dirs (v : list bytes) (x : group_conf) : group_conf := GroupConf (gc_name x) (gc_parent x) (gc_limit x) (gc_methods x) v (gc_up x) (gc_down x) (gc_connect x) (gc_establish x) (gc_disestablish x).
Definition set_gc_up (v : option command) (x : group_conf) : group_conf := GroupConf (gc_name x) (gc_parent x) (gc_limit x) (gc_methods x) (gc_dirs x) v (gc_down x) (gc_connect x) (gc_establish x) (gc_disestablish x).
Definition set_gc_down (v : option command) (x : group_conf) : group_conf := GroupConf (gc_name x) (gc_parent x) (gc_limit x) (gc_methods x) (gc_dirs x) (gc_up x) v (gc_connect x) (gc_establish x) (gc_disestablish x).
Definition set_gc_connect (v : option command) (x : group_conf) : group_conf := GroupConf (gc_name x) (gc_parent x) (gc_limit x) (gc_methods x) (gc_dirs x) (gc_up x) (gc_down x) v (gc_establish x) (gc_disestablish x).
Definition set_gc_establish (v : option command) (x : group_conf) : group_conf := GroupConf (gc_name x) (gc_parent x) (gc_limit x) (gc_methods x) (gc_dirs x) (gc_up x) (gc_down x) (gc_connect x) v (gc_disestablish x).
Definition set_gc_disestablish (v : option command) (x : group_conf) : group_conf := GroupConf (gc_name x) (gc_parent x) (gc_limit x) (gc_methods x) (gc_dirs x) (gc_up x) (gc_down x) (gc_connect x) (gc_establish x) v.
Definition new_group (name : bytes) (parent : option nat) : group_conf := GroupConf name parent None [] [] None None None None None.

(** The part of [conf] (fastd_config_t) that the configuration sets, and ctx.peers *)
Record conf := Conf {
  c_user : option bytes;
  c_group : option bytes;
  c_caps : caps;
  c_ciphers : list (bytes * bytes); (* what was passed to fastd_cipher_config, the last first *)
  c_macs : list (bytes * bytes);
  c_stderr : option level;
  c_syslog : option level;
  c_ident : bytes;
  c_hide_ip : bool;
  c_hide_mac : bool;
  c_ifname : option bytes;
  c_binds : list bind_addr; (* bind_addrs, the last one first *)
  c_default4 : option nat; (* bind_addr_default_v4: its position, counted from the end of the list *)
  c_default6 : option nat;
  c_mark : N;
  c_mtu : N;
  c_mode : mode;
  c_persist : bool;
  c_offload : bool;
  c_secret : option bytes;
  c_pre_up : option command;
  c_post_down : option command;
  c_verify : option command;
  c_verify_group : option nat;
  c_status : option bytes;
  c_forward : bool;
  c_groups : list group_conf; (* the tree below peer_group; index 0 is peer_group *)
  c_peers : list peer_conf }. (* ctx.peers *)
Definition set_c_user (v : option bytes) (x : conf) : conf := Conf v (c_group x) (c_caps x) (c_ciphers x) (c_macs x) (c_stderr x) (c_syslog x) (c_ident x) (c_hide_ip x) (c_hide_mac x) (c_ifname x) (c_binds x) (c_default4 x) (c_default6 x) (c_mark x) (c_mtu x) (c_mode x) (c_persist x) (c_offload x) (c_secret x) (c_pre_up x) (c_post_down x) (c_verify x) (c_verify_group x) (c_status x) (c_forward x) (c_groups x) (c_peers x).
Definition set_c_group (v : option bytes) (x : conf) : conf := Conf (c_user x) v (c_caps x) (c_ciphers x) (c_macs x) (c_stderr x) (c_syslog x) (c_ident x) (c_hide_ip x) (c_hide_mac x) (c_ifname x) (c_binds x) (c_default4 x) (c_default6 x) (c_mark x) (c_mtu x) (c_mode x) (c_persist x) (c_offload x) (c_secret x) (c_pre_up x) (c_post_down x) (c_verify x) (c_verify_group x) (c_status x) (c_forward x) (c_groups x) (c_peers x).
Definition set_c_caps (v : caps) (x : conf) : conf := Conf (c_user x) (c_group x) v (c_ciphers x) (c_macs x) (c_stderr x) (c_syslog x) (c_ident x) (c_hide_ip x) (c_hide_mac x) (c_ifname x) (c_binds x) (c_default4 x) (c_default6 x) (c_mark x) (c_mtu x) (c_mode x) (c_persist x) (c_offload x) (c_secret x) (c_pre_up x) (c_post_down x) (c_verify x) (c_verify_group x) (c_status x) (c_forward x) (c_groups x) (c_peers x).
Definition set_c_ciphers (v : list (bytes * bytes)) (x : conf) : conf := Conf (c_user x) (c_group x) (c_caps x) v (c_macs x) (c_stderr x) (c_syslog x) (c_ident x) (c_hide_ip x) (c_hide_mac x) (c_ifname x) (c_binds x) (c_default4 x) (c_default6 x) (c_mark x) (c_mtu x) (c_mode x) (c_persist x) (c_offload x) (c_secret x) (c_pre_up x) (c_post_down x) (c_verify x) (c_verify_group x) (c_status x) (c_forward x) (c_groups x) (c_peers x).
Definition set_c_macs (v : list (bytes * bytes)) (x : conf) : conf := Conf (c_user x) (c_group x) (c_caps x) (c_ciphers x) v (c_stderr x) (c_syslog x) (c_ident x) (c_hide_ip x) (c_hide_mac x) (c_ifname x) (c_binds x) (c_default4 x) (c_default6 x) (c_mark x) (c_mtu x) (c_mode x) (c_persist x) (c_offload x) (c_secret x) (c_pre_up x) (c_post_down x) (c_verify x) (c_verify_group x) (c_status x) (c_forward x) (c_groups x) (c_peers x).
Definition set_c_stderr (v : option level) (x : conf) : conf := Conf (c_user x) (c_group x) (c_caps x) (c_ciphers x) (c_macs x) v (c_syslog x) (c_ident x) (c_hide_ip x) (c_hide_mac x) (c_ifname x) (c_binds x) (c_default4 x) (c_default6 x) (c_mark x) (c_mtu x) (c_mode x) (c_persist x) (c_offload x) (c_secret x) (c_pre_up x) (c_post_down x) (c_verify x) (c_verify_group x) (c_status x) (c_forward x) (c_groups x) (c_peers x).
Definition set_c_syslog (v : option level) (x : conf) : conf := Conf (c_user x) (c_group x) (c_caps x) (c_ciphers x) (c_macs x) (c_stderr x) v (c_ident x) (c_hide_ip x) (c_hide_mac x) (c_ifname x) (c_binds x) (c_default4 x) (c_default6 x) (c_mark x) (c_mtu x) (c_mode x) (c_persist x) (c_offload x) (c_secret x) (c_pre_up x) (c_post_down x) (c_verify x) (c_verify_group x) (c_status x) (c_forward x) (c_groups x) (c_peers x).
Definition set_c_ident (v : bytes) (x : conf) : conf := Conf (c_user x) (c_group x) (c_caps x) (c_ciphers x) (c_macs x) (c_stderr x) (c_syslog x) v (c_hide_ip x) (c_hide_mac x) (c_ifname x) (c_binds x) (c_default4 x) (c_default6 x) (c_mark x) (c_mtu x) (c_mode x) (c_persist x) (c_offload x) (c_secret x) (c_pre_up x) (c_post_down x) (c_verify x) (c_verify_group x) (c_status x) (c_forward x) (c_groups x) (c_peers x).
Definition set_c_hide_ip (v : bool) (x : conf) : conf := Conf (c_user x) (c_group x) (c_caps x) (c_ciphers x) (c_macs x) (c_stderr x) (c_syslog x) (c_ident x) v (c_hide_mac x) (c_ifname x) (c_binds x) (c_default4 x) (c_default6 x) (c_mark x) (c_mtu x) (c_mode x) (c_persist x) (c_offload x) (c_secret x) (c_pre_up x) (c_post_down x) (c_verify x) (c_verify_group x) (c_status x) (c_forward x) (c_groups x) (c_peers x).
Definition set_c_hide_mac (v : bool) (x : conf) : conf := Conf (c_user x) (c_group x) (c_caps x) (c_ciphers x) (c_macs x) (c_stderr x) (c_syslog x) (c_ident x) (c_hide_ip x) v (c_ifname x) (c_binds x) (c_default4 x) (c_default6 x) (c_mark x) (c_mtu x) (c_mode x) (c_persist x) (c_offload x) (c_secret x) (c_pre_up x) (c_post_down x) (c_verify x) (c_verify_group x) (c_status x) (c_forward x) (c_groups x) (c_peers x).
Definition set_c_ifname (v : option bytes) (x : conf) : conf := Conf (c_user x) (c_group x) (c_caps x) (c_ciphers x) (c_macs x) (c_stderr x) (c_syslog x) (c_ident x) (c_hide_ip x) (c_hide_mac x) v (c_binds x) (c_default4 x) (c_default6 x) (c_mark x) (c_mtu x) (c_mode x) (c_persist x) (c_offload x) (c_secret x) (c_pre_up x) (c_post_down x) (c_verify x) (c_verify_group x) (c_status x) (c_forward x) (c_groups x) (c_peers x).
Definition set_c_binds (v : list bind_addr) (x : conf) : conf := Conf (c_user x) (c_group x) (c_caps x) (c_ciphers x) (c_macs x) (c_stderr x) (c_syslog x) (c_ident x) (c_hide_ip x) (c_hide_mac x) (c_ifname x) v (c_default4 x) (c_default6 x) (c_mark x) (c_mtu x) (c_mode x) (c_persist x) (c_offload x) (c_secret x) (c_pre_up x) (c_post_down x) (c_verify x) (c_verify_group x) (c_status x) (c_forward x) (c_groups x) (c_peers x).
Definition set_c_default4 (v : option nat) (x : conf) : conf := Conf (c_user x) (c_group x) (c_caps x) (c_ciphers x) (c_macs x) (c_stderr x) (c_syslog x) (c_ident x) (c_hide_ip x) (c_hide_mac x) (c_ifname x) (c_binds x) v (c_default6 x) (c_mark x) (c_mtu x) (c_mode x) (c_persist x) (c_offload x) (c_secret x) (c_pre_up x) (c_post_down x) (c_verify x) (c_verify_group x) (c_status x) (c_forward x) (c_groups x) (c_peers x).
Definition set_c_default6 (v : option nat) (x : conf) : conf := Conf (c_user x) (c_group x) (c_caps x) (c_ciphers x) (c_macs x) (c_stderr x) (c_syslog x) (c_ident x) (c_hide_ip x) (c_hide_mac x) (c_ifname x) (c_binds x) (c_default4 x) v (c_mark x) (c_mtu x) (c_mode x) (c_persist x) (c_offload x) (c_secret x) (c_pre_up x) (c_post_down x) (c_verify x) (c_verify_group x) (c_status x) (c_forward x) (c_groups x) (c_peers x).
Definition set_c_mark (v : N) (x : conf) : conf := Conf (c_user x) (c_group x) (c_caps x) (c_ciphers x) (c_macs x) (c_stderr x) (c_syslog x) (c_ident x) (c_hide_ip x) (c_hide_mac x) (c_ifname x) (c_binds x) (c_default4 x) (c_default6 x) v (c_mtu x) (c_mode x) (c_persist x) (c_offload x) (c_secret x) (c_pre_up x) (c_post_down x) (c_verify x) (c_verify_group x) (c_status x) (c_forward x) (c_groups x) (c_peers x).
Definition set_c_mtu (v : N) (x : conf) : conf := Conf (c_user x) (c_group x) (c_caps x) (c_ciphers x) (c_macs x) (c_stderr x) (c_syslog x) (c_ident x) (c_hide_ip x) (c_hide_mac x) (c_ifname x) (c_binds x) (c_default4 x) (c_default6 x) (c_mark x) v (c_mode x) (c_persist x) (c_offload x) (c_secret x) (c_pre_up x) (c_post_down x) (c_verify x) (c_verify_group x) (c_status x) (c_forward x) (c_groups x) (c_peers x).
Definition set_c_mode (v : mode) (x : conf) : conf := Conf (c_user x) (c_group x) (c_caps x) (c_ciphers x) (c_macs x) (c_stderr x) (c_syslog x) (c_ident x) (c_hide_ip x) (c_hide_mac x) (c_ifname x) (c_binds x) (c_default4 x) (c_default6 x) (c_mark x) (c_mtu x) v (c_persist x) (c_offload x) (c_secret x) (c_pre_up x) (c_post_down x) (c_verify x) (c_verify_group x) (c_status x) (c_forward x) (c_groups x) (c_peers x).
Definition set_c_persist (v : bool) (x : conf) : conf := Conf (c_user x) (c_group x) (c_caps x) (c_ciphers x) (c_macs x) (c_stderr x) (c_syslog x) (c_ident x) (c_hide_ip x) (c_hide_mac x) (c_ifname x) (c_binds x) (c_default4 x) (c_default6 x) (c_mark x) (c_mtu x) (c_mode x) v (c_offload x) (c_secret x) (c_pre_up x) (c_post_down x) (c_verify x) (c_verify_group x) (c_status x) (c_forward x) (c_groups x) (c_peers x).
Definition set_c_offload (v : bool) (x : conf) : conf := Conf (c_user x) (c_group x) (c_caps x) (c_ciphers x) (c_macs x) (c_stderr x) (c_syslog x) (c_ident x) (c_hide_ip x) (c_hide_mac x) (c_ifname x) (c_binds x) (c_default4 x) (c_default6 x) (c_mark x) (c_mtu x) (c_mode x) (c_persist x) v (c_secret x) (c_pre_up x) (c_post_down x) (c_verify x) (c_verify_group x) (c_status x) (c_forward x) (c_groups x) (c_peers x).
Definition set_c_secret (v : option bytes) (x : conf) : conf := Conf (c_user x) (c_group x) (c_caps x) (c_ciphers x) (c_macs x) (c_stderr x) (c_syslog x) (c_ident x) (c_hide_ip x) (c_hide_mac x) (c_ifname x) (c_binds x) (c_default4 x) (c_default6 x) (c_mark x) (c_mtu x) (c_mode x) (c_persist x) (c_offload x) v (c_pre_up x) (c_post_down x) (c_verify x) (c_verify_group x) (c_status x) (c_forward x) (c_groups x) (c_peers x).
Definition set_c_pre_up (v : option command) (x : conf) : conf := Conf (c_user x) (c_group x) (c_caps x) (c_ciphers x) (c_macs x) (c_stderr x) (c_syslog x) (c_ident x) (c_hide_ip x) (c_hide_mac x) (c_ifname x) (c_binds x) (c_default4 x) (c_default6 x) (c_mark x) (c_mtu x) (c_mode x) (c_persist x) (c_offload x) (c_secret x) v (c_post_down x) (c_verify x) (c_verify_group x) (c_status x) (c_forward x) (c_groups x) (c_peers x).
Definition set_c_post_down (v : option command) (x : conf) : conf := Conf (c_user x) (c_group x) (c_caps x) (c_ciphers x) (c_macs x) (c_stderr x) (c_syslog x) (c_ident x) (c_hide_ip x) (c_hide_mac x) (c_ifname x) (c_binds x) (c_default4 x) (c_default6 x) (c_mark x) (c_mtu x) (c_mode x) (c_persist x) (c_offload x) (c_secret x) (c_pre_up x) v (c_verify x) (c_verify_group x) (c_status x) (c_forward x) (c_groups x) (c_peers x).
Definition set_c_verify (v : option command) (x : conf) : conf := Conf (c_user x) (c_group x) (c_caps x) (c_ciphers x) (c_macs x) (c_stderr x) (c_syslog x) (c_ident x) (c_hide_ip x) (c_hide_mac x) (c_ifname x) (c_binds x) (c_default4 x) (c_default6 x) (c_mark x) (c_mtu x) (c_mode x) (c_persist x) (c_offload x) (c_secret x) (c_pre_up x) (c_post_down x) v (c_verify_group x) (c_status x) (c_forward x) (c_groups x) (c_peers x).
Definition set_c_verify_group (v : option nat) (x : conf) : conf := Conf (c_user x) (c_group x) (c_caps x) (c_ciphers x) (c_macs x) (c_stderr x) (c_syslog x) (c_ident x) (c_hide_ip x) (c_hide_mac x) (c_ifname x) (c_binds x) (c_default4 x) (c_default6 x) (c_mark x) (c_mtu x) (c_mode x) (c_persist x) (c_offload x) (c_secret x) (c_pre_up x) (c_post_down x) (c_verify x) v (c_status x) (c_forward x) (c_groups x) (c_peers x).
Definition set_c_status (v : option bytes) (x : conf) : conf := Conf (c_user x) (c_group x) (c_caps x) (c_ciphers x) (c_macs x) (c_stderr x) (c_syslog x) (c_ident x) (c_hide_ip x) (c_hide_mac x) (c_ifname x) (c_binds x) (c_default4 x) (c_default6 x) (c_mark x) (c_mtu x) (c_mode x) (c_persist x) (c_offload x) (c_secret x) (c_pre_up x) (c_post_down x) (c_verify x) (c_verify_group x) v (c_forward x) (c_groups x) (c_peers x).
Definition set_c_forward (v : bool) (x : conf) : conf := Conf (c_user x) (c_group x) (c_caps x) (c_ciphers x) (c_macs x) (c_stderr x) (c_syslog x) (c_ident x) (c_hide_ip x) (c_hide_mac x) (c_ifname x) (c_binds x) (c_default4 x) (c_default6 x) (c_mark x) (c_mtu x) (c_mode x) (c_persist x) (c_offload x) (c_secret x) (c_pre_up x) (c_post_down x) (c_verify x) (c_verify_group x) (c_status x) v (c_groups x) (c_peers x).
Definition set_c_groups (v : list group_conf) (x : conf) : conf := Conf (c_user x) (c_group x) (c_caps x) (c_ciphers x) (c_macs x) (c_stderr x) (c_syslog x) (c_ident x) (c_hide_ip x) (c_hide_mac x) (c_ifname x) (c_binds x) (c_default4 x) (c_default6 x) (c_mark x) (c_mtu x) (c_mode x) (c_persist x) (c_offload x) (c_secret x) (c_pre_up x) (c_post_down x) (c_verify x) (c_verify_group x) (c_status x) (c_forward x) v (c_peers x).
Definition set_c_peers (v : list peer_conf) (x : conf) : conf := Conf (c_user x) (c_group x) (c_caps x) (c_ciphers x) (c_macs x) (c_stderr x) (c_syslog x) (c_ident x) (c_hide_ip x) (c_hide_mac x) (c_ifname x) (c_binds x) (c_default4 x) (c_default6 x) (c_mark x) (c_mtu x) (c_mode x) (c_persist x) (c_offload x) (c_secret x) (c_pre_up x) (c_post_down x) (c_verify x) (c_verify_group x) (c_status x) (c_forward x) (c_groups x) v.
(** [default_config], config.c L48-63; [conf] is zero before *)
Definition default_config : conf :=
  Conf None None CapsOn [] [] None None (w "fastd") false false None [] None None 0 1500 Tap true false None None None None None None false
    [new_group (w "default") None] [].

(** * What the parser depends on *)

(** The build options of the preprocessor in config.y and config.c *)
Record build := Build { b_user : bool; b_mark : bool; b_bindtodevice : bool; b_multiaf : bool; b_status : bool; b_dynamic : bool; b_offload : bool }.

Record env := Env {
  e_build : build;
  e_pton4 : bytes -> option bytes;
  e_pton6 : bytes -> option bytes;
  e_ntop6 : bytes -> bytes; (* inet_ntop(AF_INET6) *)
  e_cipher : bytes -> bytes -> bool; (* fastd_cipher_config *)
  e_mac : bytes -> bytes -> bool; (* fastd_mac_config *)
  e_protocol : bytes; (* conf.protocol->name *)
  e_point : bytes -> bool; (* the key is a point of the curve and not the neutral one, ec25519_fhmqvc.c L66-67 *)
  e_stdin : bytes * list nat * bool; (* the contents, the sizes of the reads, a read error at the end *)
  e_file : bytes -> bytes -> option (bytes * list nat * bool); (* [fopen] in a directory *)
  e_cd : bytes -> bytes -> option bytes; (* [chdir] and get_current_dir_name *)
  e_dirname : bytes -> bytes }.

(** MAX_CONFIG_DEPTH, build.h.in *)
Definition max_depth : nat := 10%nat.

(** * The parser's monad *)

(** The remaining tokens, the configuration, and the two variables of [fastd_parser_state] (config.h L21-27) that change *)
Record pst := Pst { ps_toks : list tok; ps_conf : conf; ps_group : nat; ps_peer : option peer_conf }.
Definition M (A : Type) : Type := pst -> res (option (A * pst)).
Definition ret {A} (a : A) : M A := fun s => Ok (Some (a, s)).
Definition bnd {A B} (m : M A) (f : A -> M B) : M B :=
  fun s => do r <- m s; match r with None => Ok None | Some (a, s) => f a s end.
Notation "'let!' x <- m ; f" := (bnd m (fun x => f)) (at level 200, x pattern, m at level 100, f at level 200).
Notation "m ;; f" := (bnd m (fun _ => f)) (at level 199, f at level 200, right associativity).
(** YYERROR *)
Definition fail {A} : M A := fun _ => Ok None.
(** exit_error *)
Definition fatal {A} : M A := fun _ => Fatal.

(** The next token, which stays; an error of the lexer ends the parse, config.c L347-353 *)
Definition peek : M tok := fun s =>
  match ps_toks s with
  | [] | TErr _ :: _ => Ok None
  | t :: _ => Ok (Some (t, s))
  end.
(** The next token is shifted *)
Definition next_tok : M tok := fun s =>
  match ps_toks s with
  | [] | TErr _ :: _ => Ok None
  | t :: r => Ok (Some (t, Pst r (ps_conf s) (ps_group s) (ps_peer s)))
  end.
Definition modify (f : conf -> conf) : M unit := fun s => Ok (Some (tt, Pst (ps_toks s) (f (ps_conf s)) (ps_group s) (ps_peer s))).
Definition get_group : M nat := fun s => Ok (Some (ps_group s, s)).
(** Access to [state->peer]; it is set wherever the grammar allows a statement of a peer *)
Definition modify_peer (f : peer_conf -> peer_conf) : M unit := fun s =>
  match ps_peer s with
  | None => UB
  | Some p => Ok (Some (tt, Pst (ps_toks s) (ps_conf s) (ps_group s) (Some (f p))))
  end.

Definition kw_eqb (a b : kw) : bool := bytes_eqb (word a) (word b).
Definition key (k : kw) : M unit := let! t <- next_tok; match t with TKey k' => if kw_eqb k k' then ret tt else fail | _ => fail end.
Definition chr (c : byte) : M unit := let! t <- next_tok; match t with TChar c' => if c =? c' then ret tt else fail | _ => fail end.
Definition str : M bytes := let! t <- next_tok; match t with TStr v => ret v | _ => fail end.
Definition uint : M N := let! t <- next_tok; match t with TUint n => ret n | _ => fail end.
(** An optional keyword *)
Definition opt (k : kw) : M bool :=
  let! t <- peek;
  match t with TKey k' => if kw_eqb k k' then next_tok ;; ret true else ret false | _ => ret false end.

Definition semicolon : M unit := chr 59.

(** * The nonterminals with values *)

(** boolean, config.y L663-665 *)
Definition boolean : M bool :=
  let! t <- next_tok; match t with TKey Kyes => ret true | TKey Kno => ret false | _ => fail end.
(** autobool, L667-669; the value is not used *)
Definition autobool : M unit :=
  let! t <- next_tok; match t with TKey Kauto => ret tt | TKey Kyes => ret tt | TKey Kno => ret tt | _ => fail end.
(** sync, L659-661 *)
Definition sync : M bool :=
  let! t <- peek; match t with TKey Ksync => next_tok ;; ret true | TKey Kasync => next_tok ;; ret false | _ => ret false end.
(** log_level and maybe_log_level, L304-317 *)
Definition log_level : M level :=
  let! t <- next_tok;
  match t with
  | TKey Kfatal => ret LFatal | TKey Kerror => ret LErr | TKey Kwarn => ret LWarn | TKey Kinfo => ret LInfo
  | TKey Kverbose => ret LVerbose | TKey Kdebug => ret LDebug | TKey Kdebug2 => ret LDebug2
  | _ => fail
  end.
Definition maybe_log_level : M level := let! b <- opt Klevel; if b : bool then log_level else ret level_default.
(** colon_or_port, L671-673 *)
Definition colon_or_port : M unit :=
  let! t <- next_tok; match t with TChar c => if c =? 58 then ret tt else fail | TKey Kport => ret tt | _ => fail end.
(** port and bind_port, L675-693 *)
Definition port : M N :=
  colon_or_port ;; let! n <- uint; if (n <? 1) || (65535 <? n) then fail else ret n.
Definition bind_port : M N :=
  colon_or_port ;; let! n <- uint; if 65535 <? n then fail else ret n.
(** maybe_bind_port, L630-633; None is -1 *)
Definition maybe_bind_port : M (option N) :=
  let! t <- peek;
  match t with
  | TChar c => if c =? 58 then (let! n <- bind_port; ret (Some n)) else ret None
  | TKey Kport => let! n <- bind_port; ret (Some n)
  | _ => ret None
  end.
(** maybe_bind_interface, L348-355 *)
Definition maybe_bind_interface : M (option bytes) := let! b <- opt Kinterface; if b : bool then (let! s <- str; ret (Some s)) else ret None.
(** maybe_bind_default and bind_default, L357-376: the two flags *)
Definition maybe_bind_default : M (bool * bool) :=
  let! b <- opt Kdefault;
  if b : bool then
    let! t <- peek;
    match t with
    | TKey Kipv4 => next_tok ;; ret (true, false)
    | TKey Kipv6 => next_tok ;; ret (false, true)
    | _ => ret (true, true)
    end
  else ret (false, false).
(** maybe_as, L635-638 *)
Definition maybe_as : M (option bytes) := let! b <- opt Kas; if b : bool then (let! s <- str; ret (Some s)) else ret None.

(** * Functions called by the actions *)

(** [htons] into the two bytes of a port *)
Definition htons (n : N) : bytes := [(n / 256) mod 256; n mod 256].

Fixpoint update {A} (n : nat) (f : A -> A) (l : list A) : list A :=
  match l, n with
  | [], _ => []
  | x :: r, O => f x :: r
  | x :: r, S n => x :: update n f r
  end.
Definition update_group (g : nat) (f : group_conf -> group_conf) (c : conf) : conf := set_c_groups (update g f (c_groups c)) c.

(** strchr(s, c): the string from the first such byte on; [strrchr(s, c) != strchr(s, c)] says that there is another one *)
Fixpoint strchr (s : bytes) (c : byte) : option bytes := match s with [] => None | x :: r => if x =? c then Some s else strchr r c end.
(** The test of [fastd_config_ifname], config.c L85-96; the byte behind the percent sign is zero at the end of the string *)
Definition ifname_ok (s : bytes) : bool :=
  match strchr s 47 with
  | Some _ => false
  | None =>
      match strchr s 37 with
      | None => true
      | Some rest =>
          if match strchr (skipn 1 rest) 37 with Some _ => true | None => false end then false
          else (let c := nth 1 rest 0 in negb (negb (c =? 110) && negb (c =? 107)))
      end
  end.

(** fastd_peer_address_is_v6_ll, peer.h *)
Definition is_v6_ll (a : bind_host) : bool := match a with BAddr (AInet6 ip _ _ _) => is_linklocal ip | _ => false end.
Definition is_inet (a : bind_host) : bool := match a with BAddr (AInet _ _) => true | _ => false end.
Definition is_inet6 (a : bind_host) : bool := match a with BAddr (AInet6 _ _ _ _) => true | _ => false end.
Definition simplify_host (a : bind_host) : bind_host := match a with BAddr a => BAddr (address_simplify a) | BAny p => BAny p end.

(** [fastd_config_bind_address], config.c L123-160, for one address *)
Definition add_bind (host : bind_host) (dev : option bytes) (f4 f6 dyn : bool) (c : conf) : conf :=
  let a := simplify_host host in
  let i := List.length (c_binds c) in
  let c := set_c_binds (Bind a dev f4 f6 dyn :: c_binds c) c in
  let c := if negb (is_inet6 a) && (f4 || match c_default4 c with None => true | Some _ => false end) then set_c_default4 (Some i) c else c in
  if negb (is_inet a) && (f6 || match c_default6 c with None => true | Some _ => false end) then set_c_default6 (Some i) c else c.

Section Parser.
Context (E : env).

Definition bind_address (host : bind_host) (dev : option bytes) (f4 f6 dyn : bool) : M unit :=
  if negb (b_bindtodevice (e_build E)) && match dev with Some _ => true | None => false end && negb (is_v6_ll host) then fatal
  else
    match host with
    | BAny p =>
        if b_multiaf (e_build E) then modify (add_bind host dev f4 f6 dyn)
        else
          (* called again for each; a device without USE_BINDTODEVICE does not get here *)
          modify (add_bind (BAddr (AInet (repeat 0 4) p)) dev f4 f6 dyn) ;;
          modify (add_bind (BAddr (AInet6 (repeat 0 16) p (repeat 0 4) (repeat 0 4))) dev f4 f6 dyn)
    | _ => modify (add_bind host dev f4 f6 dyn)
    end.

(** [fastd_config_handle_bind_address], config.y L696-713; [host] gets the port *)
Definition handle_bind_address (host : bytes -> bind_host) (port : option N) (dev : option bytes) (d : bool * bool) : M unit :=
  let '(f4, f6) := d in
  match port with
  | None => bind_address (host (htons 0)) dev f4 f6 true
  | Some n => bind_address (host (htons n)) dev f4 f6 false
  end.

(** bind, config.y L326-346 *)
Definition bind_stmt : M unit :=
  let! t <- next_tok;
  match t with
  | TScoped a i =>
      let! p <- maybe_bind_port; let! d <- maybe_bind_default;
      handle_bind_address (fun p => BAddr (AInet6 a p (repeat 0 4) (repeat 0 4))) p (Some i) d
  | TAddr4 a =>
      let! p <- maybe_bind_port; let! i <- maybe_bind_interface; let! d <- maybe_bind_default;
      handle_bind_address (fun p => BAddr (AInet a p)) p i d
  | TAddr6 a =>
      let! p <- maybe_bind_port; let! i <- maybe_bind_interface; let! d <- maybe_bind_default;
      handle_bind_address (fun p => BAddr (AInet6 a p (repeat 0 4) (repeat 0 4))) p i d
  | TKey Kany =>
      let! p <- maybe_bind_port; let! i <- maybe_bind_interface; let! d <- maybe_bind_default;
      handle_bind_address BAny p i d
  | _ => fail
  end.

(** log, config.y L249-268 *)
Definition log_stmt : M unit :=
  let! t <- next_tok;
  match t with
  | TKey Klevel =>
      let! l <- log_level;
      modify (fun c => match c_syslog c with Some _ => set_c_syslog (Some l) c | None => c end) ;;
      modify (fun c => match c_stderr c, c_syslog c with None, Some _ => c | _, _ => set_c_stderr (Some l) c end)
  | TKey Kto =>
      let! t <- next_tok;
      match t with
      | TKey Kstderr => let! l <- maybe_log_level; modify (set_c_stderr (Some l))
      | TKey Ksyslog =>
          let! b <- opt Kas;
          if b : bool then
            let! s <- str; let! l <- maybe_log_level;
            modify (set_c_ident s) ;; modify (set_c_syslog (Some l))
          else let! l <- maybe_log_level; modify (set_c_syslog (Some l))
      | _ => fail
      end
  | _ => fail
  end.

(** drop_capabilities, config.y L218-232 *)
Definition drop_stmt : M unit :=
  let! t <- peek;
  match t with
  | TKey Kearly => next_tok ;; modify (set_c_caps CapsEarly)
  | TKey Kforce => next_tok ;; modify (set_c_caps CapsForce)
  | _ => let! b <- boolean; modify (set_c_caps (if b : bool then CapsOn else CapsOff))
  end.

(** [fastd_shell_command_set], shell.h L40-46, in the working directory [cwd] *)
Definition command_set (cwd s : bytes) (sy : bool) : option command := Some (Command s cwd sy).

(** The statements that only START_CONFIG has, config.y L167-188, from the first token [t] of a statement to the
    semicolon *)
Definition global_stmt (cwd : bytes) (t : tok) : M unit :=
  match t with
  | TKey Kuser => let! s <- str; (if b_user (e_build E) then modify (set_c_user (Some s)) else fail) ;; semicolon
  | TKey Kgroup => let! s <- str; (if b_user (e_build E) then modify (set_c_group (Some s)) else fail) ;; semicolon
  | TKey Kdrop => key Kcapabilities ;; drop_stmt ;; semicolon
  | TKey Ksecure => key Khandshakes ;; boolean ;; semicolon
  | TKey Kcipher =>
      let! a <- str; key Kuse ;; let! b <- str;
      (if e_cipher E a b then modify (fun c => set_c_ciphers ((a, b) :: c_ciphers c) c) else fatal) ;; semicolon
  | TKey Kmac =>
      let! a <- str; key Kuse ;; let! b <- str;
      (if e_mac E a b then modify (fun c => set_c_macs ((a, b) :: c_macs c) c) else fatal) ;; semicolon
  | TKey Klog => log_stmt ;; semicolon
  | TKey Khide =>
      let! t <- next_tok;
      match t with
      | TKey Kip => key Kaddresses ;; let! b <- boolean; modify (set_c_hide_ip b) ;; semicolon
      | TKey Kmac => key Kaddresses ;; let! b <- boolean; modify (set_c_hide_mac b) ;; semicolon
      | _ => fail
      end
  | TKey Kinterface => let! s <- str; (if ifname_ok s then modify (set_c_ifname (Some s)) else fail) ;; semicolon
  | TKey Kbind => bind_stmt ;; semicolon
  | TKey Kpacket =>
      (* uint64_t to uint32_t *)
      key Kmark ;; let! n <- uint; (if b_mark (e_build E) then modify (set_c_mark (n mod 2 ^ 32)) else fail) ;; semicolon
  | TKey Kmtu =>
      (* uint64_t to uint16_t *)
      let! n <- uint; (if (n <? 576) || (65535 <? n) then fail else modify (set_c_mtu (n mod 2 ^ 16))) ;; semicolon
  | TKey Kpmtu => autobool ;; semicolon
  | TKey Kmode =>
      let! t <- next_tok;
      (match t with
       | TKey Ktap => modify (set_c_mode Tap)
       | TKey Kmultitap => modify (set_c_mode Multitap)
       | TKey Ktun => modify (set_c_mode Tun)
       | _ => fail
       end) ;; semicolon
  | TKey Kpersist => key Kinterface ;; let! b <- boolean; modify (set_c_persist b) ;; semicolon
  | TKey Koffload =>
      key Kl2tp ;; let! b <- boolean;
      (if b_offload (e_build E) then modify (set_c_offload b) else if b : bool then fail else ret tt) ;; semicolon
  | TKey Kprotocol => let! s <- str; (if bytes_eqb s (e_protocol E) then ret tt else fatal) ;; semicolon
  | TKey Ksecret => let! s <- str; modify (set_c_secret (Some s)) ;; semicolon
  | TKey Kstatus => key Ksocket ;; let! s <- str; (if b_status (e_build E) then modify (set_c_status (Some s)) else fail) ;; semicolon
  | TKey Kforward => let! b <- boolean; modify (set_c_forward b) ;; semicolon
  | _ => fail
  end.

(** The statements with TOK_ON, config.y L184-185 and L194-199: pre-up and post-down are global ones *)
Definition group_command (cwd : bytes) (set : option command -> group_conf -> group_conf) : M unit :=
  let! sy <- sync; let! s <- str; let! g <- get_group;
  modify (update_group g (set (command_set cwd s sy))) ;; semicolon.
Definition on_stmt (full : bool) (cwd : bytes) : M unit :=
  let! t <- next_tok;
  match t with
  | TKey Kup => group_command cwd set_gc_up
  | TKey Kdown => group_command cwd set_gc_down
  | TKey Kconnect => group_command cwd set_gc_connect
  | TKey Kestablish => group_command cwd set_gc_establish
  | TKey Kdisestablish => group_command cwd set_gc_disestablish
  | TKey Kverify =>
      let! sy <- sync; let! s <- str; let! g <- get_group;
      (if b_dynamic (e_build E) then modify (fun c => set_c_verify_group (Some g) (set_c_verify (command_set cwd s sy) c)) else fail) ;;
      semicolon
  | TKey Kpre_up =>
      if full then (let! s <- str; modify (set_c_pre_up (command_set cwd s true)) ;; semicolon) else fail
  | TKey Kpost_down =>
      if full then (let! s <- str; modify (set_c_post_down (command_set cwd s true)) ;; semicolon) else fail
  | _ => fail
  end.

(** * Peers *)

(** [protocol_read_key], ec25519_fhmqvc.c L62-74 *)
Fixpoint cells_set (l : NameModel.cells) : res bytes :=
  match l with
  | [] => Ok []
  | Some x :: r => do t <- cells_set r; Ok (x :: t)
  | None :: _ => UB
  end.
Definition read_peer_key (s : bytes) : res (option bytes) :=
  do k <- HexModel.read_key s;
  match k with
  | None => Ok None
  | Some k => do k <- cells_set k; Ok (if e_point E k then Some k else None)
  end.

(** peer_remote, config.y L448-495 *)
Definition add_remote (r : remote) : M unit := modify_peer (fun p => set_pc_remotes (pc_remotes p ++ [r]) p).
Definition remote_addr (a : saddr) : remote := RAddr (address_simplify a).
Definition peer_remote : M unit :=
  let! b4 <- opt Kipv4;
  let! b6 <- (if b4 : bool then ret false else opt Kipv6);
  let! t <- next_tok;
  match t with
  | TAddr4 a => if b6 : bool then fail else let! n <- port; add_remote (remote_addr (AInet a (htons n)))
  | TAddr6 a => if b4 : bool then fail else let! n <- port; add_remote (remote_addr (AInet6 a (htons n) (repeat 0 4) (repeat 0 4)))
  | TScoped a i => if b4 : bool then fail else let! n <- port; add_remote (RHost (e_ntop6 E a ++ [37] ++ i) (Some Inet6) (htons n))
  | TStr s =>
      let! n <- port;
      add_remote (RHost s (if b4 : bool then Some Inet else if b6 : bool then Some Inet6 else None) (htons n))
  | _ => fail
  end.

(** [fastd_peer_add], peer.c L728-780.  While the configuration file is read, all peers have the state CONFIG_NEW. *)
Definition peer_add (p : peer_conf) : M unit := fun s =>
  match pc_key p with
  | None => Ok None
  | Some k =>
      if existsb (fun q => match pc_key q with Some k' => bytes_eqb k k' | None => false end) (c_peers (ps_conf s)) then Ok None
      else modify (fun c => set_c_peers (c_peers c ++ [p]) c) s
  end.

(** * Files *)

(** [fastd_config_read] as the actions call it: in a working directory, with the name of the file, and the group and the peer it is read
    for; the peer is given back. *)
Definition reader : Type := bytes -> bytes -> nat -> option peer_conf -> conf -> res (option (conf * option peer_conf)).
Definition call (rd : reader) (cwd name : bytes) (g : nat) (p : option peer_conf) : M (option peer_conf) := fun s =>
  do r <- rd cwd name g p (ps_conf s);
  match r with
  | None => Ok None
  | Some (c, p) => Ok (Some (p, Pst (ps_toks s) c (ps_group s) (ps_peer s)))
  end.

(** peer_statement, config.y L440-446, from its first token on *)
Definition set_peer (p : option peer_conf) : M unit := fun s => Ok (Some (tt, Pst (ps_toks s) (ps_conf s) (ps_group s) p)).
Definition get_peer : M (option peer_conf) := fun s => Ok (Some (ps_peer s, s)).
Definition lift {A} (r : res A) : M A := fun s => do a <- r; Ok (Some (a, s)).
Definition peer_stmt (rd : reader) (cwd : bytes) (t : tok) : M unit :=
  match t with
  | TKey Kremote => peer_remote ;; semicolon
  | TKey Kfloat => let! b <- boolean; modify_peer (set_pc_float b) ;; semicolon
  | TKey Kkey => let! s <- str; let! k <- lift (read_peer_key s); modify_peer (set_pc_key k) ;; semicolon
  | TKey Kinterface => let! s <- str; (if ifname_ok s then modify_peer (set_pc_ifname (Some s)) else fail) ;; semicolon
  | TKey Kmtu =>
      let! n <- uint; (if (n <? 576) || (65535 <? n) then fail else modify_peer (set_pc_mtu (n mod 2 ^ 16))) ;; semicolon
  | TKey Kinclude =>
      let! s <- str; let! g <- get_group; let! p <- get_peer;
      let! p <- call rd cwd s g p; set_peer p ;; semicolon
  | _ => fail
  end.

(** A list of statements ends before a closing brace or at the end of the file *)
Definition at_end (t : tok) : bool := match t with TEof => true | TChar c => c =? 125 | _ => false end.

(** peer_conf, config.y L436-438 *)
Fixpoint peer_conf_block (fuel : nat) (rd : reader) (cwd : bytes) : M unit :=
  match fuel with
  | O => fun _ => UB
  | S f =>
      let! t <- peek;
      if at_end t then ret tt
      else next_tok ;; peer_stmt rd cwd t ;; peer_conf_block f rd cwd
  end.

(** peer_after, config.y L428-434 *)
Definition peer_after : M unit :=
  let! p <- get_peer;
  match p with None => fun _ => UB | Some p => peer_add p end.

(** include, config.y L608-628 *)
Definition add_dir (cwd dir : bytes) (g : nat) : M unit :=
  match e_cd E cwd dir with
  | Some d => modify (update_group g (fun x => set_gc_dirs (d :: gc_dirs x) x))
  | None => ret tt
  end.
Definition include_stmt (rd : reader) (cwd : bytes) : M unit :=
  let! t <- next_tok;
  match t with
  | TKey Kpeer =>
      let! s <- str; let! name <- maybe_as; let! g <- get_group;
      let! p <- call rd cwd s g (Some (new_peer name 0));
      (match p with None => fun _ => UB | Some p => peer_add p end) ;; semicolon
  | TKey Kpeers => key Kfrom ;; let! s <- str; let! g <- get_group; add_dir cwd s g ;; semicolon
  | TStr s => let! g <- get_group; call rd cwd s g None ;; semicolon
  | _ => fail
  end.

(** [fastd_config_peer_group_push] and [fastd_config_peer_group_pop], config.c L163-182 *)
Definition push_group (name : bytes) : M unit := fun s =>
  let c := ps_conf s in
  Ok (Some (tt, Pst (ps_toks s) (set_c_groups (c_groups c ++ [new_group name (Some (ps_group s))]) c) (List.length (c_groups c)) (ps_peer s))).
Definition pop_group : M unit := fun s =>
  match nth_error (c_groups (ps_conf s)) (ps_group s) with
  | None => UB
  | Some x => match gc_parent x with
              | None => UB
              | Some g => Ok (Some (tt, Pst (ps_toks s) (ps_conf s) g (ps_peer s)))
              end
  end.

(** config and peer_group_config, config.y L154-161; statement and peer_group_statement, L163-200.  [full] says that this is a list
    of [statement]s. *)
Fixpoint block (fuel : nat) (full : bool) (rd : reader) (cwd : bytes) : M unit :=
  match fuel with
  | O => fun _ => UB
  | S f =>
      let! t <- peek;
      if at_end t then ret tt
      else
        next_tok ;;
        (match t with
         | TKey Kpeer =>
             let! t <- next_tok;
             match t with
             | TStr name =>
                 let! g <- get_group;
                 set_peer (Some (new_peer (Some name) g)) ;;
                 chr 123 ;; peer_conf_block f rd cwd ;; chr 125 ;; peer_after
             | TKey Kgroup =>
                 let! name <- str;
                 push_group name ;;
                 chr 123 ;; block f false rd cwd ;; chr 125 ;; pop_group
             | TKey Klimit =>
                 let! n <- uint; let! g <- get_group;
                 (if 2 ^ 31 - 1 <? n then fail else modify (update_group g (set_gc_limit (Some n)))) ;; semicolon
             | _ => fail
             end
         | TKey Kmethod =>
             let! s <- str; let! g <- get_group;
             modify (update_group g (fun x => set_gc_methods (NameModel.config_method (gc_methods x) s) x)) ;; semicolon
         | TKey Kon => on_stmt full cwd
         | TKey Kinclude => include_stmt rd cwd
         | _ => if full then global_stmt cwd t else fail
         end) ;;
        block f full rd cwd
  end.

(** [fastd_config_read], config.c L311-390, from the opened file on: [cwd] is the directory of the file *)
Definition has_parent (c : conf) (g : nat) : res bool :=
  match nth_error (c_groups c) g with
  | None => UB
  | Some x => Ok (match gc_parent x with Some _ => true | None => false end)
  end.
Definition read_toks (rd : reader) (cwd : bytes) (file : bytes * list nat * bool) (g : nat) (p : option peer_conf) (c : conf) :
  res (option (conf * option peer_conf)) :=
  let '(contents, sched, err) := file in
  do items <- lex_file (e_pton4 E) (e_pton6 E) contents sched err;
  let toks := map (fun i => tok_of (fst (fst i))) items in
  let fuel := S (List.length toks) in
  do sub <- has_parent c g;
  do r <- (match p with
           | Some p => peer_conf_block fuel rd cwd (Pst toks c g (Some (set_pc_group g p)))
           | None => block fuel (negb sub) rd cwd (Pst toks c g None)
           end);
  match r with
  | None => Ok None
  | Some (_, s) =>
      match ps_toks s with
      | [TEof] => Ok (Some (ps_conf s, match p with Some _ => ps_peer s | None => None end))
      | _ => Ok None
      end
  end.

(** [left] is MAX_CONFIG_DEPTH - depth *)
Fixpoint read_file (left : nat) : reader :=
  match left with
  | O => fun _ _ _ _ _ => Fatal
  | S d => fun cwd name g p c =>
      match e_file E cwd name with
      | None => Ok None
      | Some file =>
          match e_cd E cwd (e_dirname E name) with
          | None => Ok None
          | Some cwd' => read_toks (read_file d) cwd' file g p c
          end
      end
  end.

(** The configuration file, as --config gives it (options.c); None is the standard input.  At depth 0 the limit is not reached. *)
Definition read_config (cwd : bytes) (name : option bytes) (c : conf) : res (option conf) :=
  do r <- (match name with
           | Some name => read_file max_depth cwd name 0%nat None c
           | None => read_toks (read_file (max_depth - 1)) cwd (e_stdin E) 0%nat None c
           end);
  Ok (option_map fst r).
End Parser.
