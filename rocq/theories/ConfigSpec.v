(** What a configuration means: the statements and how they are written, which ones are in effect after the included files have been put in
    their place, and the settings they add up to. *)
From Verif Require Import Base BufferModel MethodModel AddrModel LexModel LexSpec HexSpec ConfigModel.
From Coq Require Import String.
Local Open Scope N_scope.

(** * Statements and their text *)

Inductive wport : Set := Colon | Word. (* ":" or "port" *)
Inductive bhost : Type := H4 (a : bytes) | H6 (a : bytes) | HAny.
Inductive hook : Set := Up | Down | Connect | Establish | Disestablish.

(** Settings outside of all groups *)
Inductive setting : Type :=
| SUser (s : bytes) | SOsGroup (s : bytes) | SDrop (c : caps) | SSecure (b : bool) | SCipher (name impl : bytes) | SMac (name impl : bytes)
| SLogLevel (l : level) | SLogStderr (l : option level) | SLogSyslog (ident : option bytes) (l : option level)
| SHideIp (b : bool) | SHideMac (b : bool) | SIface (s : bytes)
| SBind (h : bhost) (p : option (wport * N)) (dev : option bytes) (dflt : option (option family))
| SBindScoped (a dev : bytes) (p : option (wport * N)) (dflt : option (option family))
| SMark (n : N) | SMtu (n : N) | SPmtu (b : option bool) | SMode (m : mode) | SPersist (b : bool) | SOffload (b : bool) | SProtocol (s : bytes)
| SSecret (s : bytes) | SPreUp (s : bytes) | SPostDown (s : bytes) | SStatus (s : bytes) | SForward (b : bool).

(** Settings of a peer; [said] tells whether the address family is written *)
Inductive psetting : Type :=
| PRemote4 (said : bool) (a : bytes) (p : wport * N)
| PRemote6 (said : bool) (a : bytes) (p : wport * N)
| PRemoteScoped (said : bool) (a i : bytes) (p : wport * N)
| PRemoteHost (af : option family) (s : bytes) (p : wport * N)
| PFloat (b : bool) | PKey (s : bytes) | PIface (s : bytes) | PMtu (n : N).
Inductive pstmt : Type := PSet (s : psetting) | PInclude (f : bytes).

Inductive stmt : Type :=
| SSet (s : setting)
| SPeer (name : bytes) (body : list pstmt)
| SGroup (name : bytes) (body : list stmt)
| SLimit (n : N) | SMethod (s : bytes)
| SOn (h : hook) (sy : option bool) (s : bytes) | SVerify (sy : option bool) (s : bytes)
| SIncludePeer (f : bytes) (name : option bytes) | SIncludePeers (dir : bytes) | SInclude (f : bytes).

Definition K (s : string) : lexeme := LKeyword (w s).
Definition semi : lexeme := LChar 59.
Definition yesno (b : bool) : lexeme := if b then K "yes" else K "no".
Definition level_text (l : level) : lexeme :=
  K (match l with LFatal => "fatal" | LErr => "error" | LWarn => "warn" | LInfo => "info" | LVerbose => "verbose" | LDebug => "debug" | LDebug2 => "debug2" end).
Definition maybe_level_text (l : option level) : list lexeme := match l with None => [] | Some l => [K "level"; level_text l] end.
Definition port_text (p : wport * N) : list lexeme := [match fst p with Colon => LChar 58 | Word => K "port" end; LUint (snd p)].
Definition maybe_port_text (p : option (wport * N)) : list lexeme := match p with None => [] | Some p => port_text p end.
Definition family_text (f : family) : lexeme := K (match f with Inet => "ipv4" | Inet6 => "ipv6" end).
Definition default_text (d : option (option family)) : list lexeme :=
  match d with None => [] | Some None => [K "default"] | Some (Some f) => [K "default"; family_text f] end.
Definition sync_text (s : option bool) : list lexeme := match s with None => [] | Some true => [K "sync"] | Some false => [K "async"] end.
Definition hook_text (h : hook) : lexeme :=
  K (match h with Up => "up" | Down => "down" | Connect => "connect" | Establish => "establish" | Disestablish => "disestablish" end).

Definition setting_text (s : setting) : list lexeme :=
  match s with
  | SUser s => [K "user"; LStr s]
  | SOsGroup s => [K "group"; LStr s]
  | SDrop c => [K "drop"; K "capabilities"; match c with CapsOff => K "no" | CapsOn => K "yes" | CapsEarly => K "early" | CapsForce => K "force" end]
  | SSecure b => [K "secure"; K "handshakes"; yesno b]
  | SCipher a b => [K "cipher"; LStr a; K "use"; LStr b]
  | SMac a b => [K "mac"; LStr a; K "use"; LStr b]
  | SLogLevel l => [K "log"; K "level"; level_text l]
  | SLogStderr l => [K "log"; K "to"; K "stderr"] ++ maybe_level_text l
  | SLogSyslog None l => [K "log"; K "to"; K "syslog"] ++ maybe_level_text l
  | SLogSyslog (Some s) l => [K "log"; K "to"; K "syslog"; K "as"; LStr s] ++ maybe_level_text l
  | SHideIp b => [K "hide"; K "ip"; K "addresses"; yesno b]
  | SHideMac b => [K "hide"; K "mac"; K "addresses"; yesno b]
  | SIface s => [K "interface"; LStr s]
  | SBind h p dev d =>
      [K "bind"; match h with H4 a => LAddr4 a | H6 a => LAddr6 a | HAny => K "any" end] ++ maybe_port_text p ++
      match dev with None => [] | Some s => [K "interface"; LStr s] end ++ default_text d
  | SBindScoped a i p d => [K "bind"; LAddr6Scoped a i] ++ maybe_port_text p ++ default_text d
  | SMark n => [K "packet"; K "mark"; LUint n]
  | SMtu n => [K "mtu"; LUint n]
  | SPmtu None => [K "pmtu"; K "auto"]
  | SPmtu (Some b) => [K "pmtu"; yesno b]
  | SMode m => [K "mode"; match m with Tap => K "tap" | Multitap => K "multitap" | Tun => K "tun" end]
  | SPersist b => [K "persist"; K "interface"; yesno b]
  | SOffload b => [K "offload"; K "l2tp"; yesno b]
  | SProtocol s => [K "protocol"; LStr s]
  | SSecret s => [K "secret"; LStr s]
  | SPreUp s => [K "on"; K "pre-up"; LStr s]
  | SPostDown s => [K "on"; K "post-down"; LStr s]
  | SStatus s => [K "status"; K "socket"; LStr s]
  | SForward b => [K "forward"; yesno b]
  end ++ [semi].

Definition said_text (said : bool) (f : family) : list lexeme := if said then [family_text f] else [].
Definition psetting_text (s : psetting) : list lexeme :=
  match s with
  | PRemote4 said a p => [K "remote"] ++ said_text said Inet ++ [LAddr4 a] ++ port_text p
  | PRemote6 said a p => [K "remote"] ++ said_text said Inet6 ++ [LAddr6 a] ++ port_text p
  | PRemoteScoped said a i p => [K "remote"] ++ said_text said Inet6 ++ [LAddr6Scoped a i] ++ port_text p
  | PRemoteHost af s p => [K "remote"] ++ match af with None => [] | Some f => [family_text f] end ++ [LStr s] ++ port_text p
  | PFloat b => [K "float"; yesno b]
  | PKey s => [K "key"; LStr s]
  | PIface s => [K "interface"; LStr s]
  | PMtu n => [K "mtu"; LUint n]
  end ++ [semi].
Definition pstmt_text (s : pstmt) : list lexeme :=
  match s with PSet s => psetting_text s | PInclude f => [K "include"; LStr f; semi] end.
Definition peer_text (l : list pstmt) : list lexeme := flat_map pstmt_text l.

Fixpoint stmt_text (s : stmt) : list lexeme :=
  match s with
  | SSet s => setting_text s
  | SPeer name body => [K "peer"; LStr name; LChar 123] ++ peer_text body ++ [LChar 125]
  | SGroup name body => [K "peer"; K "group"; LStr name; LChar 123] ++ flat_map stmt_text body ++ [LChar 125]
  | SLimit n => [K "peer"; K "limit"; LUint n; semi]
  | SMethod s => [K "method"; LStr s; semi]
  | SOn h sy s => [K "on"; hook_text h] ++ sync_text sy ++ [LStr s; semi]
  | SVerify sy s => [K "on"; K "verify"] ++ sync_text sy ++ [LStr s; semi]
  | SIncludePeer f None => [K "include"; K "peer"; LStr f; semi]
  | SIncludePeer f (Some name) => [K "include"; K "peer"; LStr f; K "as"; LStr name; semi]
  | SIncludePeers d => [K "include"; K "peers"; K "from"; LStr d; semi]
  | SInclude f => [K "include"; LStr f; semi]
  end.
Definition text (l : list stmt) : list lexeme := flat_map stmt_text l.

(** * Conditions on single statements *)

(** An interface name has no slash and at most one percent sign, which begins %n or %k *)
Definition ifname_fine (s : bytes) : Prop :=
  ~ In 47 s /\ (~ In 37 s \/ exists a x b, s = a ++ [37; x] ++ b /\ (x = 110 \/ x = 107) /\ ~ In 37 a /\ ~ In 37 b).

(** A device other than the scope of a link-local address can be given on some systems only *)
Definition device_fine (E : env) (h : bhost) (dev : option bytes) : Prop :=
  dev = None \/ b_bindtodevice (e_build E) = true \/ match h with H6 a => is_linklocal a = true | _ => False end.
Definition bind_port_fine (p : option (wport * N)) : Prop := match p with None => True | Some (_, n) => n <= 65535 end.

Definition setting_fine (E : env) (s : setting) : Prop :=
  match s with
  | SUser _ | SOsGroup _ => b_user (e_build E) = true
  | SCipher a b => e_cipher E a b = true
  | SMac a b => e_mac E a b = true
  | SIface s => ifname_fine s
  | SBind h p dev _ => bind_port_fine p /\ device_fine E h dev
  | SBindScoped a i p _ => bind_port_fine p /\ device_fine E (H6 a) (Some i)
  | SMark _ => b_mark (e_build E) = true
  | SMtu n => 576 <= n <= 65535
  | SOffload b => b = true -> b_offload (e_build E) = true
  | SProtocol s => s = e_protocol E
  | SStatus _ => b_status (e_build E) = true
  | _ => True
  end.
Definition port_fine (p : wport * N) : Prop := 1 <= snd p <= 65535.
Definition psetting_fine (s : psetting) : Prop :=
  match s with
  | PRemote4 _ _ p | PRemote6 _ _ p | PRemoteScoped _ _ _ p | PRemoteHost _ _ p => port_fine p
  | PIface s => ifname_fine s
  | PMtu n => 576 <= n <= 65535
  | _ => True
  end.

(** * Files *)

(** No address is longer than the longest one, as in C46 *)
Definition sane (E : env) : Prop :=
  (forall a, (15 < List.length a)%nat -> e_pton4 E a = None) /\ (forall a, (45 < List.length a)%nat -> e_pton6 E a = None).

(** A file, opened in the directory [cwd], with its directory and its tokens *)
Definition file_is (E : env) (cwd name dir : bytes) (l : list lexeme) : Prop :=
  exists contents sched err items, e_file E cwd name = Some (contents, sched, err) /\ e_cd E cwd (e_dirname E name) = Some dir /\
    lex_file (e_pton4 E) (e_pton6 E) contents sched err = Ok items /\ tokens items = l.

(** The main file, or the standard input *)
Definition main_is (E : env) (cwd : bytes) (name : option bytes) (dir : bytes) (l : list lexeme) : Prop :=
  match name with
  | Some name => file_is E cwd name dir l
  | None => dir = cwd /\ exists contents sched err items, e_stdin E = (contents, sched, err) /\
      lex_file (e_pton4 E) (e_pton6 E) contents sched err = Ok items /\ tokens items = l
  end.
(** The settings of a peer with those of the included files; [d] is the number of files that can still be nested *)
Inductive peer_means (E : env) : nat -> bytes -> list pstmt -> list psetting -> Prop :=
| pm_nil d cwd : peer_means E d cwd [] []
| pm_set d cwd s body ps : psetting_fine s -> peer_means E d cwd body ps -> peer_means E d cwd (PSet s :: body) (s :: ps)
| pm_include d cwd f dir inner pi body ps :
    file_is E cwd f dir (peer_text inner ++ [LEof]) -> peer_means E d dir inner pi -> peer_means E (S d) cwd body ps ->
    peer_means E (S d) cwd (PInclude f :: body) (pi ++ ps).

(** What is in effect, each with its group.  Groups are numbered in the order in which they begin; 0 is the default group. *)
Inductive effect : Type :=
| ESet (dir : bytes) (s : setting)
| EGroup (parent : nat) (name : bytes)
| ELimit (g : nat) (n : N)
| EMethod (g : nat) (s : bytes)
| EOn (g : nat) (h : hook) (c : command)
| EVerify (g : nat) (c : command)
| EDir (g : nat) (dir : bytes)
| EPeer (name : option bytes) (g : nat) (ps : list psetting).

Definition heads (es : list effect) : list (bytes * option nat) :=
  flat_map (fun e => match e with EGroup g name => [(name, Some g)] | _ => [] end) es.
Definition groups (es : list effect) : nat := List.length (heads es).
Definition is_sync (sy : option bool) : bool := match sy with Some b => b | None => false end.

(** [means E d cwd g n body es]: in the directory [cwd] and the group [g], after [n] groups have begun, [body] stands for [es] *)
Inductive means (E : env) : nat -> bytes -> nat -> nat -> list stmt -> list effect -> Prop :=
| m_nil d cwd g n : means E d cwd g n [] []
| m_set d cwd n s body es : setting_fine E s -> means E d cwd 0 n body es -> means E d cwd 0 n (SSet s :: body) (ESet cwd s :: es)
| m_peer d cwd g n name inner ps body es : peer_means E d cwd inner ps -> means E d cwd g n body es ->
    means E d cwd g n (SPeer name inner :: body) (EPeer (Some name) g ps :: es)
| m_group d cwd g n name inner ei body es : means E d cwd n (S n) inner ei -> means E d cwd g (S n + groups ei) body es ->
    means E d cwd g n (SGroup name inner :: body) (EGroup g name :: ei ++ es)
| m_limit d cwd g n k body es : k <= 2 ^ 31 - 1 -> means E d cwd g n body es -> means E d cwd g n (SLimit k :: body) (ELimit g k :: es)
| m_method d cwd g n s body es : means E d cwd g n body es -> means E d cwd g n (SMethod s :: body) (EMethod g s :: es)
| m_on d cwd g n h sy s body es : means E d cwd g n body es ->
    means E d cwd g n (SOn h sy s :: body) (EOn g h (Command s cwd (is_sync sy)) :: es)
| m_verify d cwd g n sy s body es : b_dynamic (e_build E) = true -> means E d cwd g n body es ->
    means E d cwd g n (SVerify sy s :: body) (EVerify g (Command s cwd (is_sync sy)) :: es)
| m_include_peer d cwd g n f name dir inner ps body es :
    file_is E cwd f dir (peer_text inner ++ [LEof]) -> peer_means E d dir inner ps -> means E (S d) cwd g n body es ->
    means E (S d) cwd g n (SIncludePeer f name :: body) (EPeer name g ps :: es)
| m_include_peers d cwd g n dir abs body es : e_cd E cwd dir = Some abs -> means E d cwd g n body es ->
    means E d cwd g n (SIncludePeers dir :: body) (EDir g abs :: es)
| m_include_peers_missing d cwd g n dir body es : e_cd E cwd dir = None -> means E d cwd g n body es ->
    means E d cwd g n (SIncludePeers dir :: body) es
| m_include d cwd g n f dir inner ei body es :
    file_is E cwd f dir (text inner ++ [LEof]) -> means E d dir g n inner ei -> means E (S d) cwd g (n + groups ei) body es ->
    means E (S d) cwd g n (SInclude f :: body) (ei ++ es).

(** * What the statements in effect add up to *)

(** The last one counts *)
Definition last_of {A B} (f : A -> option B) (d : B) (l : list A) : B :=
  fold_left (fun acc x => match f x with Some v => v | None => acc end) l d.
Definition all_of {A B} (f : A -> option B) (l : list A) : list B := flat_map (fun x => match f x with Some v => [v] | None => [] end) l.
(** Each one, at its first place *)
Fixpoint distinct (l : list bytes) : list bytes :=
  match l with [] => [] | x :: r => x :: filter (fun y => negb (bytes_eqb y x)) (distinct r) end.

Definition settings (es : list effect) : list setting := all_of (fun e => match e with ESet _ s => Some s | _ => None end) es.

(** The level goes to syslog if something is logged there, and to the standard error unless only syslog is used *)
Definition log_step (st : option level * option level) (s : setting) : option level * option level :=
  let or_default l := Some (match l with Some l => l | None => LVerbose end) in
  let '(err, sys) := st in
  match s with
  | SLogLevel l =>
      match err, sys with
      | _, None => (Some l, None)
      | None, Some _ => (None, Some l)
      | Some _, Some _ => (Some l, Some l)
      end
  | SLogStderr l => (or_default l, sys)
  | SLogSyslog _ l => (err, or_default l)
  | _ => st
  end.

(** Bind addresses *)
Definition port_bytes (n : N) : bytes := [n / 256; n mod 256].
Definition zeros (n : nat) : bytes := repeat 0 n.
Definition inet6 (a p : bytes) : saddr := if is_v4mapped a then AInet (skipn 12 a) p else AInet6 a p (zeros 4) (zeros 4).
Definition hosts (E : env) (h : bhost) (p : bytes) : list bind_host :=
  match h with
  | H4 a => [BAddr (AInet a p)]
  | H6 a => [BAddr (inet6 a p)]
  | HAny => if b_multiaf (e_build E) then [BAny p] else [BAddr (AInet (zeros 4) p); BAddr (AInet6 (zeros 16) p (zeros 4) (zeros 4))]
  end.
Definition for4 (d : option (option family)) : bool := match d with Some None | Some (Some Inet) => true | _ => false end.
Definition for6 (d : option (option family)) : bool := match d with Some None | Some (Some Inet6) => true | _ => false end.
Definition binds_of (E : env) (h : bhost) (p : option (wport * N)) (dev : option bytes) (d : option (option family)) : list bind_addr :=
  map (fun a => Bind a dev (for4 d) (for6 d) (match p with None => true | Some _ => false end))
    (hosts E h (port_bytes (match p with None => 0 | Some (_, n) => n end))).
Definition binds (E : env) (l : list setting) : list bind_addr :=
  flat_map (fun s => match s with SBind h p dev d => binds_of E h p dev d | SBindScoped a i p d => binds_of E (H6 a) p (Some i) d | _ => [] end) l.

(** The positions of the elements with a property *)
Definition positions {A} (P : A -> bool) (l : list A) : list nat :=
  map fst (filter (fun x => P (snd x)) (combine (seq 0 (List.length l)) l)).
(** The default address for a family: the last one said to be the default, or else the first one *)
Definition default_bind (fits says : bind_addr -> bool) (l : list bind_addr) : option nat :=
  match rev (positions (fun b => fits b && says b) l) with
  | i :: _ => Some i
  | [] => hd_error (positions fits l)
  end.
Definition fits4 (b : bind_addr) : bool := match ba_addr b with BAddr (AInet6 _ _ _ _) => false | _ => true end.
Definition fits6 (b : bind_addr) : bool := match ba_addr b with BAddr (AInet _ _) => false | _ => true end.

(** Groups *)
Definition group_is (es : list effect) (i : nat) (h : bytes * option nat) : group_conf :=
  let mine {B} (f : effect -> option (nat * B)) (e : effect) : option (option B) :=
    match f e with Some (g, v) => if Nat.eqb g i then Some (Some v) else None | None => None end in
  let cmd (k : hook) :=
    last_of (mine (fun e => match e, k with
                            | EOn g Up c, Up | EOn g Down c, Down | EOn g Connect c, Connect | EOn g Establish c, Establish
                            | EOn g Disestablish c, Disestablish => Some (g, c)
                            | _, _ => None
                            end)) None es in
  GroupConf (fst h) (snd h)
    (last_of (mine (fun e => match e with ELimit g n => Some (g, n) | _ => None end)) None es)
    (distinct (all_of (fun e => match e with EMethod g m => if Nat.eqb g i then Some m else None | _ => None end) es))
    (rev (all_of (fun e => match e with EDir g d => if Nat.eqb g i then Some d else None | _ => None end) es))
    (cmd Up) (cmd Down) (cmd Connect) (cmd Establish) (cmd Disestablish).
Definition all_heads (es : list effect) : list (bytes * option nat) := (w "default", None) :: heads es.

(** Peers *)
Definition remote_is (E : env) (s : psetting) : option remote :=
  match s with
  | PRemote4 _ a (_, n) => Some (RAddr (AInet a (port_bytes n)))
  | PRemote6 _ a (_, n) => Some (RAddr (inet6 a (port_bytes n)))
  | PRemoteScoped _ a i (_, n) => Some (RHost (e_ntop6 E a ++ [37] ++ i) (Some Inet6) (port_bytes n))
  | PRemoteHost af s (_, n) => Some (RHost s af (port_bytes n))
  | _ => None
  end.
Definition key_is (E : env) (s k : bytes) : Prop := List.length k = 32%nat /\ spells s k /\ e_point E k = true.
Definition peer_is (E : env) (x : option bytes * nat * list psetting) (p : peer_conf) : Prop :=
  let '(name, g, ps) := x in
  pc_name p = name /\ pc_group p = g /\ pc_dir p = None /\ pc_remotes p = all_of (remote_is E) ps /\
  pc_float p = last_of (fun s => match s with PFloat b => Some b | _ => None end) false ps /\
  pc_ifname p = last_of (fun s => match s with PIface s => Some (Some s) | _ => None end) None ps /\
  pc_mtu p = last_of (fun s => match s with PMtu n => Some n | _ => None end) 0 ps /\
  (* the last key counts, and must be one *)
  exists s k, last_of (fun s => match s with PKey s => Some (Some s) | _ => None end) None ps = Some s /\ key_is E s k /\ pc_key p = Some k.
Definition peers (es : list effect) : list (option bytes * nat * list psetting) :=
  all_of (fun e => match e with EPeer name g ps => Some (name, g, ps) | _ => None end) es.

(** The configuration that the statements in effect describe *)
Record describes (E : env) (es : list effect) (c : conf) : Prop := {
  d_user : c_user c = last_of (fun s => match s with SUser s => Some (Some s) | _ => None end) None (settings es);
  d_group : c_group c = last_of (fun s => match s with SOsGroup s => Some (Some s) | _ => None end) None (settings es);
  d_caps : c_caps c = last_of (fun s => match s with SDrop x => Some x | _ => None end) CapsOn (settings es);
  d_ciphers : c_ciphers c = rev (all_of (fun s => match s with SCipher a b => Some (a, b) | _ => None end) (settings es));
  d_macs : c_macs c = rev (all_of (fun s => match s with SMac a b => Some (a, b) | _ => None end) (settings es));
  d_log : (c_stderr c, c_syslog c) = fold_left log_step (settings es) (None, None);
  d_ident : c_ident c = last_of (fun s => match s with SLogSyslog i _ => i | _ => None end) (w "fastd") (settings es);
  d_hide_ip : c_hide_ip c = last_of (fun s => match s with SHideIp b => Some b | _ => None end) false (settings es);
  d_hide_mac : c_hide_mac c = last_of (fun s => match s with SHideMac b => Some b | _ => None end) false (settings es);
  d_ifname : c_ifname c = last_of (fun s => match s with SIface s => Some (Some s) | _ => None end) None (settings es);
  d_binds : c_binds c = rev (binds E (settings es));
  d_default4 : c_default4 c = default_bind fits4 ba_def4 (binds E (settings es));
  d_default6 : c_default6 c = default_bind fits6 ba_def6 (binds E (settings es));
  (* of a larger mark only the low 32 bits are used *)
  d_mark : c_mark c = last_of (fun s => match s with SMark n => Some (n mod 2 ^ 32) | _ => None end) 0 (settings es);
  d_mtu : c_mtu c = last_of (fun s => match s with SMtu n => Some n | _ => None end) 1500 (settings es);
  d_mode : c_mode c = last_of (fun s => match s with SMode m => Some m | _ => None end) Tap (settings es);
  d_persist : c_persist c = last_of (fun s => match s with SPersist b => Some b | _ => None end) true (settings es);
  d_offload : c_offload c = b_offload (e_build E) && last_of (fun s => match s with SOffload b => Some b | _ => None end) false (settings es);
  d_secret : c_secret c = last_of (fun s => match s with SSecret s => Some (Some s) | _ => None end) None (settings es);
  d_status : c_status c = last_of (fun s => match s with SStatus s => Some (Some s) | _ => None end) None (settings es);
  d_forward : c_forward c = last_of (fun s => match s with SForward b => Some b | _ => None end) false (settings es);
  d_pre_up : c_pre_up c = last_of (fun e => match e with ESet dir (SPreUp s) => Some (Some (Command s dir true)) | _ => None end) None es;
  d_post_down : c_post_down c = last_of (fun e => match e with ESet dir (SPostDown s) => Some (Some (Command s dir true)) | _ => None end) None es;
  d_verify : c_verify c = last_of (fun e => match e with EVerify _ x => Some (Some x) | _ => None end) None es;
  d_verify_group : c_verify_group c = last_of (fun e => match e with EVerify g _ => Some (Some g) | _ => None end) None es;
  d_groups : forall i, nth_error (c_groups c) i = option_map (group_is es i) (nth_error (all_heads es) i);
  d_peers : Forall2 (peer_is E) (peers es) (c_peers c);
  d_keys : NoDup (map pc_key (c_peers c)) }.

(** * Ending the program *)

Definition bind_text (h : bhost) (p : option (wport * N)) (dev : option bytes) (d : option (option family)) : list lexeme :=
  [K "bind"; match h with H4 a => LAddr4 a | H6 a => LAddr6 a | HAny => K "any" end] ++ maybe_port_text p ++
  match dev with None => [] | Some s => [K "interface"; LStr s] end ++ default_text d.
Definition bind_scoped_text (a i : bytes) (p : option (wport * N)) (d : option (option family)) : list lexeme :=
  [K "bind"; LAddr6Scoped a i] ++ maybe_port_text p ++ default_text d.
(** The file or peer file [f] is included *)
Inductive includes (f : bytes) : list lexeme -> Prop :=
| inc_file pre post : includes f (pre ++ [K "include"; LStr f] ++ post)
| inc_peer pre post : includes f (pre ++ [K "include"; K "peer"; LStr f] ++ post).
(** The tokens of a file, or of a file that is included, hold something for which the program ends instead of rejecting the file: a
    cipher, MAC, protocol or device that is not available, or an eleventh file within the others *)
Inductive exits (E : env) : nat -> bytes -> list lexeme -> Prop :=
| ex_cipher d cwd a b pre post : e_cipher E a b = false -> exits E d cwd (pre ++ [K "cipher"; LStr a; K "use"; LStr b] ++ post)
| ex_mac d cwd a b pre post : e_mac E a b = false -> exits E d cwd (pre ++ [K "mac"; LStr a; K "use"; LStr b] ++ post)
| ex_protocol d cwd s pre post : s <> e_protocol E -> exits E d cwd (pre ++ [K "protocol"; LStr s] ++ post)
| ex_bind d cwd h p dev dflt pre post : ~ device_fine E h dev -> exits E d cwd (pre ++ bind_text h p dev dflt ++ post)
| ex_bind_scoped d cwd a i p dflt pre post : ~ device_fine E (H6 a) (Some i) -> exits E d cwd (pre ++ bind_scoped_text a i p dflt ++ post)
| ex_deep cwd f l : includes f l -> exits E 0 cwd l
| ex_file d cwd f dir inner l : includes f l -> file_is E cwd f dir inner -> exits E d dir inner -> exits E (S d) cwd l.

(** * What holds of every configuration that is accepted *)

Record in_range (E : env) (c : conf) : Prop := {
  r_mtu : 576 <= c_mtu c <= 65535;
  r_mark : c_mark c < 2 ^ 32;
  r_ifname : forall i, c_ifname c = Some i -> ifname_fine i;
  r_offload : c_offload c = true -> b_offload (e_build E) = true;
  r_peer_mtu : forall q, In q (c_peers c) -> pc_mtu q = 0 \/ 576 <= pc_mtu q <= 65535;
  r_peer_ifname : forall q i, In q (c_peers c) -> pc_ifname q = Some i -> ifname_fine i;
  r_peer_key : forall q, In q (c_peers c) -> exists k, pc_key q = Some k /\ List.length k = 32%nat /\ e_point E k = true;
  r_peer_keys : NoDup (map pc_key (c_peers c));
  r_peer_group : forall q, In q (c_peers c) -> (pc_group q < List.length (c_groups c))%nat;
  (* the groups are a tree with the default group at its root *)
  r_groups : forall i x, nth_error (c_groups c) i = Some x -> match gc_parent x with None => i = O | Some p => (p < i)%nat end;
  r_limit : forall x n, In x (c_groups c) -> gc_limit x = Some n -> n <= 2 ^ 31 - 1;
  r_methods : forall x, In x (c_groups c) -> NoDup (gc_methods x);
  (* there is a default address for a family exactly if there is an address for it *)
  r_default4 : match c_default4 c with
               | Some i => exists b, nth_error (rev (c_binds c)) i = Some b /\ fits4 b = true
               | None => forall b, In b (c_binds c) -> fits4 b = false
               end;
  r_default6 : match c_default6 c with
               | Some i => exists b, nth_error (rev (c_binds c)) i = Some b /\ fits6 b = true
               | None => forall b, In b (c_binds c) -> fits6 b = false
               end }.
