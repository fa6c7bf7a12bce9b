(** What a command line means: each option stands for statements of the configuration language or for a setting of its own, and together
    they describe the configuration as the statements of a file do. *)
From Verif Require Import Base BufferModel MethodModel AddrModel LexModel LexSpec ConfigModel ConfigSpec OptionsModel.
From Coq Require Import String.
Local Open Scope N_scope.

Inductive oeffect : Type :=
| OE (e : effect) | OIdent (s : bytes) | OStdin | ODaemon | OPid (f : bytes) | OVerify | OGenerate | OShow | OMachine.
Definition effects (oes : list oeffect) : list effect := all_of (fun o => match o with OE e => Some e | _ => None end) oes.

(** The text of a number is nothing at all, which is 0, or white space, a sign and digits *)
Definition space (c : byte) : Prop := 9 <= c <= 13 \/ c = 32.
Definition is_digit (c : byte) : Prop := 48 <= c <= 57.
Definition decimal (ds : bytes) : N := fold_left (fun n c => 10 * n + (c - 48)) ds 0.
Definition number_text (t : bytes) (n : N) : Prop :=
  (t = [] /\ n = 0) \/
  exists ws sign ds, t = ws ++ sign ++ ds /\ Forall space ws /\ (sign = [] \/ sign = [43] \/ sign = [45] /\ n = 0) /\ ds <> [] /\
    Forall is_digit ds /\ n = decimal ds.
Definition port_suffix (t : bytes) (p : option (wport * N)) : Prop :=
  match p with None => t = [] | Some (wp, n) => wp = Colon /\ n <= 65535 /\ exists nt, t = 58 :: nt /\ number_text nt n end.
(** address, address:port, [address] or [address]:port *)
Inductive bind_arg (E : env) : bytes -> bhost -> option (wport * N) -> Prop :=
| ba_any t p : port_suffix t p -> bind_arg E (w "any" ++ t) HAny p
| ba_4 a ip t p : nth 0 (a ++ t) 0 <> 91 -> a <> w "any" -> (p = None -> ~ In 58 a) -> e_pton4 E a = Some ip -> port_suffix t p -> bind_arg E (a ++ t) (H4 ip) p
| ba_6 a ip t p : ~ In 37 a -> e_pton6 E a = Some ip -> port_suffix t p -> bind_arg E ([91] ++ a ++ [93] ++ t) (H6 ip) p.
Definition mode_text (m : mode) : bytes := w (match m with Tap => "tap" | Multitap => "multitap" | Tun => "tun" end).
Definition level_name (l : level) : bytes :=
  w (match l with LFatal => "fatal" | LErr => "error" | LWarn => "warn" | LInfo => "info" | LVerbose => "verbose" | LDebug => "debug" | LDebug2 => "debug2" end).

Local Open Scope string_scope.
Section Meaning.
Context (E : env) (B : obuild) (cwd : bytes).

(** [option_means used n ws oes]: the words [ws] of an option, when [n] groups have begun; [used] says that the standard input has been read *)
Inductive option_means (used : bool) (n : nat) : list bytes -> list oeffect -> Prop :=
| om_daemon a : In a [w "--daemon"; w "-d"] -> option_means used n [a] [ODaemon]
| om_pid f : option_means used n [w "--pid-file"; f] [OPid f]
| om_status s : b_status (e_build E) = true -> option_means used n [w "--status-socket"; s] [OE (ESet cwd (SStatus s))]
| om_config a f dir body es : In a [w "--config"; w "-c"] -> f <> w "-" -> main_is E cwd (Some f) dir (text body ++ [LEof]) ->
    means E 9 dir 0 n body es -> option_means used n [a; f] (map OE es)
| om_stdin a dir body es : In a [w "--config"; w "-c"] -> used = false -> main_is E cwd None dir (text body ++ [LEof]) -> means E 9 dir 0 n body es ->
    option_means used n [a; w "-"] (OStdin :: map OE es)
| om_stdin_again a : In a [w "--config"; w "-c"] -> used = true -> option_means used n [a; w "-"] [OStdin]
(* a peer without a name *)
| om_peer f dir inner ps : file_is E cwd f dir (peer_text inner ++ [LEof]) -> peer_means E 9 dir inner ps ->
    option_means used n [w "--config-peer"; f] [OE (EPeer None 0 ps)]
| om_dir d abs : e_cd E cwd d = Some abs -> option_means used n [w "--config-peer-dir"; d] [OE (EDir 0 abs)]
| om_dir_missing d : e_cd E cwd d = None -> option_means used n [w "--config-peer-dir"; d] []
| om_user s : ob_user B = true -> option_means used n [w "--user"; s] [OE (ESet cwd (SUser s))]
| om_group s : ob_user B = true -> option_means used n [w "--group"; s] [OE (ESet cwd (SOsGroup s))]
| om_log l : ob_logging B = true -> option_means used n [w "--log-level"; level_name l] [OE (ESet cwd (SLogStderr (Some l)))]
| om_syslog l : ob_logging B = true -> option_means used n [w "--syslog-level"; level_name l] [OE (ESet cwd (SLogSyslog None (Some l)))]
| om_ident s : ob_logging B = true -> option_means used n [w "--syslog-ident"; s] [OIdent s]
| om_hide_ip : ob_logging B = true -> option_means used n [w "--hide-ip-addresses"] [OE (ESet cwd (SHideIp true))]
| om_hide_mac : ob_logging B = true -> option_means used n [w "--hide-mac-addresses"] [OE (ESet cwd (SHideMac true))]
| om_mode a m : In a [w "--mode"; w "-m"] -> ob_operation B = true -> option_means used n [a; mode_text m] [OE (ESet cwd (SMode m))]
| om_iface a s : In a [w "--interface"; w "-i"] -> ob_operation B = true -> ifname_fine s -> option_means used n [a; s] [OE (ESet cwd (SIface s))]
(* ignored *)
| om_iface_bad a s : In a [w "--interface"; w "-i"] -> ob_operation B = true -> ~ ifname_fine s -> option_means used n [a; s] []
| om_mtu a t k : In a [w "--mtu"; w "-M"] -> ob_operation B = true -> number_text t k -> (576 <= k <= 65535)%N ->
    option_means used n [a; t] [OE (ESet cwd (SMtu k))]
| om_bind a t h p : In a [w "--bind"; w "-b"] -> ob_operation B = true -> bind_arg E t h p -> option_means used n [a; t] [OE (ESet cwd (SBind h p None None))]
| om_protocol a : In a [w "--protocol"; w "-p"] -> ob_operation B = true -> option_means used n [a; e_protocol E] []
| om_method s : ob_operation B = true -> option_means used n [w "--method"; s] [OE (EMethod 0 s)]
| om_forward : ob_operation B = true -> option_means used n [w "--forward"] [OE (ESet cwd (SForward true))]
| om_pre_up s : ob_commands B = true -> option_means used n [w "--on-pre-up"; s] [OE (ESet cwd (SPreUp s))]
| om_up s : ob_commands B = true -> option_means used n [w "--on-up"; s] [OE (EOn 0 Up (Command s cwd true))]
| om_down s : ob_commands B = true -> option_means used n [w "--on-down"; s] [OE (EOn 0 Down (Command s cwd true))]
| om_post_down s : ob_commands B = true -> option_means used n [w "--on-post-down"; s] [OE (ESet cwd (SPostDown s))]
| om_connect s : ob_commands B = true -> option_means used n [w "--on-connect"; s] [OE (EOn 0 Connect (Command s cwd false))]
| om_establish s : ob_commands B = true -> option_means used n [w "--on-establish"; s] [OE (EOn 0 Establish (Command s cwd false))]
| om_disestablish s : ob_commands B = true -> option_means used n [w "--on-disestablish"; s] [OE (EOn 0 Disestablish (Command s cwd false))]
| om_verify s : ob_commands B = true -> b_dynamic (e_build E) = true -> option_means used n [w "--on-verify"; s] [OE (EVerify 0 (Command s cwd false))]
| om_verify_config : option_means used n [w "--verify-config"] [OVerify]
| om_generate : option_means used n [w "--generate-key"] [OGenerate]
| om_show : option_means used n [w "--show-key"] [OShow]
| om_machine : option_means used n [w "--machine-readable"] [OMachine].

Definition reads_stdin (oes : list oeffect) : bool := existsb (fun o => match o with OStdin => true | _ => false end) oes.
Inductive line_means : bool -> nat -> list bytes -> list oeffect -> Prop :=
| lm_nil used n : line_means used n [] []
| lm_cons used n ws oes rest oes' : option_means used n ws oes -> line_means (used || reads_stdin oes) (n + groups (effects oes)) rest oes' ->
    line_means used n (ws ++ rest) (oes ++ oes').

(** The state that the options describe, but for the level of the log *)
Record states (oes : list oeffect) (o : ost) : Prop := {
  s_conf : exists c, describes E (effects oes) c /\
    o_conf o = set_c_ident (last_of (fun o => match o with OIdent s => Some s | OE (ESet _ (SLogSyslog i _)) => i | _ => None end) (w "fastd") oes) c;
  s_stdin : o_stdin o = reads_stdin oes;
  s_daemon : o_daemon o = existsb (fun o => match o with ODaemon => true | _ => false end) oes;
  s_pid : o_pid o = last_of (fun o => match o with OPid f => Some (Some f) | _ => None end) None oes;
  s_verify : o_verify o = existsb (fun o => match o with OVerify => true | _ => false end) oes;
  (* of these two the last one counts *)
  s_generate : o_generate o = last_of (fun o => match o with OGenerate => Some true | OShow => Some false | _ => None end) false oes;
  s_show : o_show o = last_of (fun o => match o with OGenerate => Some false | OShow => Some true | _ => None end) false oes;
  s_machine : o_machine o = existsb (fun o => match o with OMachine => true | _ => false end) oes }.
(** What is logged nowhere is logged to the standard error *)
Definition with_log (o : ost) : ost :=
  match c_stderr (o_conf o), c_syslog (o_conf o) with None, None => set_conf (set_c_stderr (Some LVerbose) (o_conf o)) o | _, _ => o end.

Definition is_help (a : bytes) : Prop := In a [w "--help"; w "-h"; w "--version"; w "-v"].
(** --bind [address%interface] *)
Definition is_bind (a : bytes) : Prop := In a [w "--bind"; w "-b"].
Definition scoped_arg (v : bytes) : Prop :=
  exists a i t ip p, v = ([91] ++ a ++ [37] ++ i ++ [93] ++ t)%list /\ ~ In 37%N a /\ e_pton6 E a = Some ip /\ port_suffix t p /\
    (b_bindtodevice (e_build E) = true \/ is_linklocal ip = true).
End Meaning.
