(** The command line: src/options.c with src/options.def.h, and [fastd_configure] (config.c L530-537).  The options of Android are left out.
    The functions that the parser of configuration files uses as well are those of ConfigModel.  Arguments are byte strings without their
    terminating zero. *)
From Verif Require Import Base BufferModel MethodModel AddrModel LexModel ConfigModel.
From Verif Require NameModel.
From Coq Require Import String.
Local Open Scope N_scope.

(** The build options of the preprocessor in options.def.h that are not in [build] *)
Record obuild := OBuild { ob_user : bool; ob_logging : bool; ob_operation : bool; ob_commands : bool }.

(** [conf], with the part that only the command line sets; whether the standard input has been read to its end *)
Record ost := Ost {
  o_conf : conf;
  o_stdin : bool;
  o_daemon : bool;
  o_pid : option bytes; (* pid_file *)
  o_verify : bool; (* verify_config *)
  o_generate : bool;
  o_show : bool;
  o_machine : bool }.
Definition set_conf (c : conf) (o : ost) : ost := Ost c (o_stdin o) (o_daemon o) (o_pid o) (o_verify o) (o_generate o) (o_show o) (o_machine o).
Definition start : ost := Ost default_config false false None false false false false.

(** * strtol *)

(** isspace in the C locale *)
Definition isspace (c : byte) : bool := ((9 <=? c) && (c <=? 13)) || (c =? 32).
Fixpoint skip_spaces (s : bytes) : bytes := match s with [] => [] | c :: r => if isspace c then skip_spaces r else s end.
Definition digit (c : byte) : option N := if (48 <=? c) && (c <=? 57) then Some (c - 48) else None.
(** The digits at the beginning, their value, and the rest *)
Fixpoint digits (acc : N) (any : bool) (s : bytes) : option N * bytes :=
  match s with
  | c :: r => match digit c with Some d => digits (10 * acc + d) true r | None => (if any then Some acc else None, s) end
  | [] => (if any then Some acc else None, [])
  end.
(** strtol(s, &end, 10): the value, and the string at [end]; without digits this is the whole string.  long has 64 bits. *)
Definition clamp (z : Z) : Z := Z.max (- 2 ^ 63) (Z.min (2 ^ 63 - 1) z).
Definition sign (t : bytes) : bool * bytes :=
  match t with [] => (false, []) | c :: r => if c =? 45 then (true, r) else if c =? 43 then (false, r) else (false, t) end.
Definition strtol (s : bytes) : Z * bytes :=
  let t := skip_spaces s in
  let '(neg, t) := sign t in
  match digits 0 false t with
  | (None, _) => (0%Z, s)
  | (Some n, r) => (clamp (if neg then - Z.of_N n else Z.of_N n), r)
  end.
(** A number in a range, up to the end of the string *)
Definition number (lo hi : Z) (s : bytes) : res N :=
  let '(n, r) := strtol s in
  if (negb (match r with [] => true | _ => false end) || (n <? lo)%Z || (hi <? n)%Z) then Fatal else Ok (Z.to_N n).

(** strrchr: what is before the last such byte, and behind it *)
Fixpoint strrchr (s : bytes) (c : byte) : option (bytes * bytes) :=
  match s with
  | [] => None
  | x :: r => match strrchr r c with
              | Some (a, b) => Some (x :: a, b)
              | None => if x =? c then Some ([], r) else None
              end
  end.
(** What is before the first such byte, and behind it *)
Fixpoint split_first (s : bytes) (c : byte) : option (bytes * bytes) :=
  match s with
  | [] => None
  | x :: r => if x =? c then Some ([], r) else match split_first r c with Some (a, b) => Some (x :: a, b) | None => None end
  end.

Section Options.
Context (E : env) (B : obuild) (cwd : bytes).

(** A function that the parser uses as well; an error of the parser is not possible here *)
Definition run_m (m : M unit) (c : conf) : res conf :=
  do r <- m (Pst [] c 0%nat None);
  match r with Some (_, s) => Ok (ps_conf s) | None => Fatal end.

(** * The options *)

(** [option_config], options.c L101-107; exit(1) is [Fatal] *)
Definition option_config (arg : bytes) (o : ost) : res ost :=
  if bytes_eqb arg (w "-") then
    do r <- read_toks E (read_file E (max_depth - 1)) cwd (if o_stdin o then ([], [], false) else e_stdin E) 0%nat None (o_conf o);
    match r with
    | Some (c, _) => Ok (Ost c true (o_daemon o) (o_pid o) (o_verify o) (o_generate o) (o_show o) (o_machine o))
    | None => Fatal
    end
  else
    do r <- read_config E cwd (Some arg) (o_conf o);
    match r with Some c => Ok (set_conf c o) | None => Fatal end.
(** [option_config_peer], L110-118 *)
Definition option_config_peer (arg : bytes) (c : conf) : res conf :=
  do r <- read_file E max_depth cwd arg 0%nat (Some (new_peer None 0)) c;
  match r with
  | None => Fatal
  | Some (c, Some p) => run_m (peer_add p) c
  | Some (_, None) => UB
  end.
(** [parse_log_level], L146-163 *)
Definition parse_log_level (arg : bytes) : res level :=
  if bytes_eqb arg (w "fatal") then Ok LFatal
  else if bytes_eqb arg (w "error") then Ok LErr
  else if bytes_eqb arg (w "warn") then Ok LWarn
  else if bytes_eqb arg (w "info") then Ok LInfo
  else if bytes_eqb arg (w "verbose") then Ok LVerbose
  else if bytes_eqb arg (w "debug") then Ok LDebug
  else if bytes_eqb arg (w "debug2") then Ok LDebug2
  else Fatal.
(** [option_mode], L196-205 *)
Definition option_mode (arg : bytes) (c : conf) : res conf :=
  if bytes_eqb arg (w "tap") then Ok (set_c_mode Tap c)
  else if bytes_eqb arg (w "multitap") then Ok (set_c_mode Multitap c)
  else if bytes_eqb arg (w "tun") then Ok (set_c_mode Tun c)
  else Fatal.
(** [option_bind], L224-288: the text of the address and of the port.  '[' is 91, ']' 93, ':' 58, '%' 37 *)
Definition bracket (arg : bytes) : bool := nth 0 arg 0 =? 91.
Definition bind_parts (arg : bytes) : res (bytes * option bytes) :=
  if bracket arg then
    match strrchr arg 93 with
    | None => Fatal
    | Some (a, []) => Ok (skipn 1 a, None)
    | Some (a, c :: p) => if c =? 58 then Ok (skipn 1 a, Some p) else Fatal
    end
  else match strrchr arg 58 with Some (a, p) => Ok (a, Some p) | None => Ok (arg, None) end.
Definition option_bind (arg : bytes) (c : conf) : res conf :=
  do x <- bind_parts arg;
  let '(addrstr, portstr) := x in
  do p <- (match portstr with None => Ok None | Some p => do n <- number 0 65535 p; Ok (Some n) end);
  let port := htons (match p with None => 0 | Some n => n end) in
  let dyn := match p with None => true | Some _ => false end in
  if bracket arg then
    let '(a, ifname) := match split_first addrstr 37 with Some (a, i) => (a, Some i) | None => (addrstr, None) end in
    match e_pton6 E a with
    | None => Fatal
    | Some ip =>
        let host := BAddr (AInet6 ip port (repeat 0 4) (repeat 0 4)) in
        match ifname with
        | None => run_m (bind_address E host None false false dyn) c
        | Some _ =>
            (* free(addrstr) before fastd_config_bind_address duplicates ifname, which points into it *)
            if negb (b_bindtodevice (e_build E)) && negb (is_v6_ll host) then Fatal else UB
        end
    end
  else if bytes_eqb addrstr (w "any") then run_m (bind_address E (BAny port) None false false dyn) c
  else
    match e_pton4 E addrstr with
    | None => Fatal
    | Some ip => run_m (bind_address E (BAddr (AInet ip port)) None false false dyn) c
    end.
(** [option_on_up] and the like, L319-355 *)
Definition option_on (set : option command -> group_conf -> group_conf) (sy : bool) (arg : bytes) (c : conf) : conf :=
  update_group 0 (set (command_set cwd arg sy)) c.

(** * The table, options.def.h *)

Inductive flag : Set := FHelp | FVersion | FDaemon | FHideIp | FHideMac | FForward | FVerify | FGenerate | FShow | FMachine.
Inductive argopt : Set :=
| APid | AStatus | AConfig | APeer | APeerDir | AUser | AGroup | ALog | ASyslog | AIdent | AMode | AIface | AMtu | ABind | AProtocol | AMethod
| APreUp | AUp | ADown | APostDown | AConnect | AEstablish | ADisestablish | AVerify.
Local Open Scope string_scope.
Definition table : list (list bytes * (flag + argopt) * bool) :=
  [([w "--help"; w "-h"], inl FHelp, true); ([w "--version"; w "-v"], inl FVersion, true); ([w "--daemon"; w "-d"], inl FDaemon, true);
   ([w "--pid-file"], inr APid, true); ([w "--status-socket"], inr AStatus, b_status (e_build E));
   ([w "--config"; w "-c"], inr AConfig, true); ([w "--config-peer"], inr APeer, true); ([w "--config-peer-dir"], inr APeerDir, true);
   ([w "--user"], inr AUser, ob_user B); ([w "--group"], inr AGroup, ob_user B);
   ([w "--log-level"], inr ALog, ob_logging B); ([w "--syslog-level"], inr ASyslog, ob_logging B); ([w "--syslog-ident"], inr AIdent, ob_logging B);
   ([w "--hide-ip-addresses"], inl FHideIp, ob_logging B); ([w "--hide-mac-addresses"], inl FHideMac, ob_logging B);
   ([w "--mode"; w "-m"], inr AMode, ob_operation B); ([w "--interface"; w "-i"], inr AIface, ob_operation B);
   ([w "--mtu"; w "-M"], inr AMtu, ob_operation B); ([w "--bind"; w "-b"], inr ABind, ob_operation B);
   ([w "--protocol"; w "-p"], inr AProtocol, ob_operation B); ([w "--method"], inr AMethod, ob_operation B);
   ([w "--forward"], inl FForward, ob_operation B);
   ([w "--on-pre-up"], inr APreUp, ob_commands B); ([w "--on-up"], inr AUp, ob_commands B); ([w "--on-down"], inr ADown, ob_commands B);
   ([w "--on-post-down"], inr APostDown, ob_commands B); ([w "--on-connect"], inr AConnect, ob_commands B);
   ([w "--on-establish"], inr AEstablish, ob_commands B); ([w "--on-disestablish"], inr ADisestablish, ob_commands B);
   ([w "--on-verify"], inr AVerify, ob_commands B && b_dynamic (e_build E));
   ([w "--verify-config"], inl FVerify, true); ([w "--generate-key"], inl FGenerate, true); ([w "--show-key"], inl FShow, true);
   ([w "--machine-readable"], inl FMachine, true)].
Local Close Scope string_scope.
(** [config_match], L379-396, for one option after the other *)
Definition lookup (a : bytes) : option (flag + argopt) :=
  option_map (fun e => snd (fst e)) (find (fun e => existsb (bytes_eqb a) (fst (fst e)) && snd e) table).

(** None: exit(0) *)
Definition do_flag (f : flag) (o : ost) : option ost :=
  let c := o_conf o in
  match f with
  | FHelp | FVersion => None
  | FDaemon => Some (Ost c (o_stdin o) true (o_pid o) (o_verify o) (o_generate o) (o_show o) (o_machine o))
  | FHideIp => Some (set_conf (set_c_hide_ip true c) o)
  | FHideMac => Some (set_conf (set_c_hide_mac true c) o)
  | FForward => Some (set_conf (set_c_forward true c) o)
  | FVerify => Some (Ost c (o_stdin o) (o_daemon o) (o_pid o) true (o_generate o) (o_show o) (o_machine o))
  | FGenerate => Some (Ost c (o_stdin o) (o_daemon o) (o_pid o) (o_verify o) true false (o_machine o))
  | FShow => Some (Ost c (o_stdin o) (o_daemon o) (o_pid o) (o_verify o) false true (o_machine o))
  | FMachine => Some (Ost c (o_stdin o) (o_daemon o) (o_pid o) (o_verify o) (o_generate o) (o_show o) true)
  end.
Definition do_arg (k : argopt) (v : bytes) (o : ost) : res ost :=
  let c := o_conf o in
  let conf_only (r : res conf) : res ost := do c <- r; Ok (set_conf c o) in
  match k with
  | APid => Ok (Ost c (o_stdin o) (o_daemon o) (Some v) (o_verify o) (o_generate o) (o_show o) (o_machine o))
  | AConfig => option_config v o
  | APeer => conf_only (option_config_peer v c)
  | APeerDir => conf_only (run_m (add_dir E cwd v 0) c)
  | AStatus => conf_only (Ok (set_c_status (Some v) c))
  | AUser => conf_only (Ok (set_c_user (Some v) c))
  | AGroup => conf_only (Ok (set_c_group (Some v) c))
  | ALog => conf_only (do l <- parse_log_level v; Ok (set_c_stderr (Some l) c))
  | ASyslog => conf_only (do l <- parse_log_level v; Ok (set_c_syslog (Some l) c))
  | AIdent => conf_only (Ok (set_c_ident v c))
  | AMode => conf_only (option_mode v c)
  | AIface => conf_only (Ok (if ifname_ok v then set_c_ifname (Some v) c else c))
  | AMtu => conf_only (do n <- number 576 65535 v; Ok (set_c_mtu (n mod 2 ^ 16) c))
  | ABind => conf_only (option_bind v c)
  | AProtocol => conf_only (if bytes_eqb v (e_protocol E) then Ok c else Fatal)
  | AMethod => conf_only (Ok (update_group 0 (fun x => set_gc_methods (NameModel.config_method (gc_methods x) v) x) c))
  | APreUp => conf_only (Ok (set_c_pre_up (command_set cwd v true) c))
  | AUp => conf_only (Ok (option_on set_gc_up true v c))
  | ADown => conf_only (Ok (option_on set_gc_down true v c))
  | APostDown => conf_only (Ok (set_c_post_down (command_set cwd v true) c))
  | AConnect => conf_only (Ok (option_on set_gc_connect false v c))
  | AEstablish => conf_only (Ok (option_on set_gc_establish false v c))
  | ADisestablish => conf_only (Ok (option_on set_gc_disestablish false v c))
  | AVerify => conf_only (Ok (set_c_verify_group (Some 0%nat) (set_c_verify (command_set cwd v false) c)))
  end.

(** [fastd_config_handle_options], L399-446, without the name of the program.  [Exit0]: exit(0) after the help or the version *)
Inductive done : Type := Exit0 | Run (o : ost).
Fixpoint handle (args : list bytes) (o : ost) : res done :=
  match args with
  | [] => Ok (Run o)
  | a :: rest =>
      match lookup a with
      | None => Fatal
      | Some (inl f) => match do_flag f o with None => Ok Exit0 | Some o => handle rest o end
      | Some (inr k) => match rest with
                        | [] => Fatal
                        | v :: rest => do o <- do_arg k v o; handle rest o
                        end
      end
  end.

(** [fastd_configure] *)
Definition configure (args : list bytes) : res done :=
  do d <- handle args start;
  match d with
  | Exit0 => Ok Exit0
  | Run o =>
      let c := o_conf o in
      Ok (Run (set_conf (match c_stderr c, c_syslog c with None, None => set_c_stderr (Some level_default) c | _, _ => c end) o))
  end.
End Options.
