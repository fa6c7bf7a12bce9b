(** C61: a command line means what its options say. *)
From Verif Require Import Base BufferModel MethodModel AddrModel LexModel LexSpec ConfigModel ConfigSpec ConfigProps OptionsModel OptionsSpec OptionsProofs OptionsProofs2
  OptionsProofs3 OptionsProofs4.
From Coq Require Import String.
Local Open Scope N_scope.

(** A command line is accepted exactly if it consists of the options of the table with arguments of their kind, and then the state is the one they describe *)
Theorem C61_meaning : forall E B cwd args o, configure E B cwd args = Ok (Run o) <->
  exists oes o0, line_means E B cwd false 1 args oes /\ states E oes o0 /\ o = with_log o0.
Proof. exact line_meaning. Qed.

(** Help and version, behind options that are all right *)
Theorem C61_help : forall E B cwd args, configure E B cwd args = Ok Exit0 <->
  exists pre a rest oes o, args = pre ++ a :: rest /\ line_means E B cwd false 1 pre oes /\ states E oes o /\ is_help a.
Proof. exact line_help. Qed.

(** Everything else ends the program with an error message, but for one form of --bind *)
Theorem C61_total : forall E B cwd args, sane E ->
  configure E B cwd args <> Bug /\
  (configure E B cwd args = UB <->
   exists pre a v rest oes o, args = pre ++ a :: v :: rest /\ line_means E B cwd false 1 pre oes /\ states E oes o /\ ob_operation B = true /\ is_bind a /\ scoped_arg E v).
Proof. exact line_total. Qed.

(** Everything is in its range, as with configuration files *)
Theorem C61_ranges : forall E B cwd args o, configure E B cwd args = Ok (Run o) -> in_range E (o_conf o).
Proof. exact line_ranges. Qed.

Local Open Scope string_scope.
Definition ex_obuild : obuild := OBuild true true true true.
Definition ex_line (args : list string) : res done := configure ex_env ex_obuild (w "/") (map w args).
(** --bind [address%interface] uses memory after it has been freed *)
Theorem C61_scope_refuted : ~ forall E B cwd args, sane E -> configure E B cwd args <> UB.
Proof. intros H. apply (H ex_env ex_obuild (w "/") (map w ["-d"; "--bind"; "[fe80::1%eth0]:7"]) C60_total_ex). vm_compute. reflexivity. Qed.
(** The manual: the filename will be used as the peer name *)
Theorem C61_peer_name_refuted : ~ forall E B cwd f o, configure E B cwd [w "--config-peer"; f] = Ok (Run o) -> forall q, In q (c_peers (o_conf o)) -> pc_name q = Some f.
Proof.
  intros H. specialize (H ex_env ex_obuild (w "/") (w "p")). destruct (configure ex_env ex_obuild (w "/") [w "--config-peer"; w "p"]) as [[|o]| | |] eqn:C; vm_compute in C; try discriminate C.
  injection C as <-. specialize (H _ eq_refl _ (or_introl eq_refl)). discriminate H.
Qed.
(** The manual: the default level is info *)
Theorem C61_default_level_refuted : ~ forall E B cwd o, configure E B cwd [] = Ok (Run o) -> c_stderr (o_conf o) = Some LInfo.
Proof. intros H. specialize (H ex_env ex_obuild (w "/") _ eq_refl). discriminate H. Qed.

Print Assumptions C61_meaning.
Print Assumptions C61_help.
Print Assumptions C61_total.
Print Assumptions C61_ranges.
Print Assumptions C61_scope_refuted.
Print Assumptions C61_peer_name_refuted.
Print Assumptions C61_default_level_refuted.

(** Options override each other in their order; invalid interface names are ignored; numbers may have signs and white space *)
Example C61_meaning_ex : match ex_line ["-M"; " +1400"; "-c"; "m"; "-d"; "-i"; "a/b"; "--generate-key"; "--show-key"; "-b"; "any:9"; "--method"; "x"; "--syslog-ident"; "y"; "--syslog-level"; "warn"] with
  | Ok (Run o) =>
      c_mtu (o_conf o) = 1280%N /\ c_ifname (o_conf o) = None /\ c_ident (o_conf o) = w "y" /\ c_syslog (o_conf o) = Some LWarn /\ c_stderr (o_conf o) = None /\
      map gc_methods (c_groups (o_conf o)) = [[w "x"]; []] /\ List.length (c_binds (o_conf o)) = 2%nat /\
      o_daemon o = true /\ o_generate o = false /\ o_show o = true
  | _ => False
  end.
Proof. vm_compute. repeat (split; [reflexivity|]). reflexivity. Qed.
Example C61_rejected_ex : ex_line ["-M"; "575"] = Fatal /\ ex_line ["-M"; "1400x"] = Fatal /\ ex_line ["-M"] = Fatal /\ ex_line ["--bind"; "any:65536"] = Fatal /\
  ex_line ["--nothing"] = Fatal /\ ex_line ["-c"; "b"] = Fatal /\ ex_line ["-m"; "x"] = Fatal.
Proof. vm_compute. repeat split. Qed.
Example C61_help_ex : ex_line ["-d"; "-h"; "--nothing"] = Ok Exit0.
Proof. vm_compute. reflexivity. Qed.
(** An empty port is 0 *)
Example C61_empty_port_ex : match ex_line ["--bind"; "any:"] with Ok (Run o) => c_binds (o_conf o) = [Bind (BAny [0%N; 0%N]) None false false false] | _ => False end.
Proof. vm_compute. reflexivity. Qed.
