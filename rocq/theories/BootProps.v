(** C79: the run modes, and what it takes to start *)
From Verif Require Import Base BufferModel MethodModel AddrModel LexModel KexModel KexSpec KexProofs HexModel HexSpec ConfigModel ConfigSpec ConfigProps
  OptionsModel OptionsProps PrivModel PrivSpec PrivProps BootModel BootSpec BootProofs3.
From Verif Require NameModel NameSpec NameProps.
From Coq Require Import String.

(** --verify-config: nothing is printed; success exactly if the configuration is consistent and all methods are supported *)
Theorem C79_verify : forall E B cwd H, host_ok H -> forall args o, configure E B cwd args = Ok (Run o) -> names_ok (o_conf o) -> o_verify o = true ->
  (config_ok H (o_conf o) /\ boot E B cwd H args = ([], Exited)) \/ (~ config_ok H (o_conf o) /\ boot E B cwd H args = ([], Failed)).
Proof. exact line_verify. Qed.

(** --generate-key: whatever the configuration, a secret from 32 random bytes and its public key *)
Theorem C79_generate : forall E B cwd H, host_ok H -> forall args o, configure E B cwd args = Ok (Run o) -> o_verify o = false -> o_generate o = true ->
  (h_random H = None /\ boot E B cwd H args = ([], Failed)) \/
  exists r k s p, h_random H = Some r /\ word256 k /\ le_val k = ephemeral r /\ digits_of s k /\ digits_of p (public_key H k) /\
    boot E B cwd H args = ([Out (if o_machine o then line [] s else line Secret_ s ++ line Public_ p)], Exited).
Proof. exact line_generate. Qed.

(** --show-key: the public key, exactly if there is a good secret *)
Theorem C79_show : forall E B cwd H, host_ok H -> forall args o, configure E B cwd args = Ok (Run o) -> o_verify o = false -> o_generate o = false -> o_show o = true ->
  (exists k p, secret_is (o_conf o) k /\ digits_of p (public_key H k) /\ boot E B cwd H args = ([Out (line (if o_machine o then [] else Public_) p)], Exited)) \/
  ((forall k, ~ secret_is (o_conf o) k) /\ boot E B cwd H args = ([], Failed)).
Proof. exact line_show. Qed.

(** Otherwise: the secret is checked before the program detaches, everything else behind that *)
Theorem C79_start : forall E B cwd H, host_ok H -> forall args o, configure E B cwd args = Ok (Run o) -> names_ok (o_conf o) ->
  o_verify o = false -> o_generate o = false -> o_show o = false ->
  ((forall k, ~ secret_is (o_conf o) k) /\ boot E B cwd H args = ([], Failed)) \/
  exists k, secret_is (o_conf o) k /\
    ((~ start_ok H (o_conf o) /\ boot E B cwd H args = (init_events o, Failed)) \/
     (start_ok H (o_conf o) /\ exists kp x, boot E B cwd H args = (init_events o, Running kp x) /\ state_ok H (o_conf o) k kp x)).
Proof. exact line_start. Qed.

(** What --verify-config rejects does not start *)
Theorem C79_dry_run : forall E B cwd H, host_ok H -> forall args o, configure E B cwd args = Ok (Run o) -> names_ok (o_conf o) ->
  boot E B cwd H (args ++ [w "--verify-config"]) = ([], Exited) \/
  (boot E B cwd H (args ++ [w "--verify-config"]) = ([], Failed) /\ forall kp x, snd (boot E B cwd H args) <> Running kp x).
Proof. exact dry_run. Qed.

(** --show-key shows the public key with which the program runs *)
Theorem C79_shown : forall E B cwd H, host_ok H -> forall args kp x, snd (boot E B cwd H args) = Running kp x ->
  exists label p, boot E B cwd H (args ++ [w "--show-key"]) = ([Out (line label p)], Exited) /\ (label = [] \/ label = Public_) /\ digits_of p (kp_public kp).
Proof. exact shown. Qed.

(** A generated secret is accepted everywhere, and --show-key prints the public key that was printed with it *)
Theorem C79_fresh : forall E B cwd H, host_ok H -> forall args o t, configure E B cwd args = Ok (Run o) -> o_generate o = true -> fst (boot E B cwd H args) = [Out t] ->
  exists s p, t = (if o_machine o then line [] s else line Secret_ s ++ line Public_ p) /\
    forall H' args' o', host_ok H' -> h_kex H' = h_kex H -> configure E B cwd args' = Ok (Run o') -> c_secret (o_conf o') = Some s ->
      (exists k, secret_is (o_conf o') k) /\
      (o_verify o' = false -> o_generate o' = false -> o_show o' = true ->
       boot E B cwd H' args' = ([Out (line (if o_machine o' then [] else Public_) p)], Exited)).
Proof. exact fresh. Qed.

(** Undefined behaviour is possible only while the command line is read *)
Theorem C79_safe : forall E B cwd H, host_ok H -> forall args, (forall o, configure E B cwd args = Ok (Run o) -> names_ok (o_conf o)) -> snd (boot E B cwd H args) = Broken ->
  configure E B cwd args = Bug \/ configure E B cwd args = UB.
Proof. exact line_safe. Qed.

(** * Examples, and what is false *)

Local Open Scope string_scope.
Definition ex_host (android : bool) : host :=
  Host NameProps.full NameModel.all_providers ex_kex true true android (Some (map N.of_nat (seq 1 32))) true ex_sys root.
Lemma ex_host_ok a : host_ok (ex_host a).
Proof.
  constructor; cbn [h_names h_kex h_random ex_host].
  - exact (proj1 NameProps.C54_hypotheses_met).
  - exact ex_laws.
  - intros p. apply BaseLemmas.le_bytes_wf.
  - intros r X. injection X as <-. split; [reflexivity|]. repeat constructor; cbn; unfold is_byte; lia.
Qed.
Definition ex_boot (a : bool) (args : list string) (text : string) : trace := boot (ex_files text) ex_obuild (w "/") (ex_host a) (map w (["-c"; "f"] ++ args)).
Definition secret8 : string := "secret ""0800000000000000000000000000000000000000000000000000000000000000"";".
Definition peer_p : string := "peer ""p"" {key """ ++ key64 ++ """;}".
Definition good : string := secret8 ++ peer_p ++ "user ""u"";method ""aes128-gcm"";peer group ""x"" {method ""salsa20+umac"";}".

Example C79_start_ex : match ex_boot false ["-d"] good with
  | (l, Running kp x) =>
      l = [Signals; Daemonize; Chdir; InitLog] /\ le_val (kp_secret kp) = 1%N /\ le_val (kp_public kp) = 64%N /\ k_uid x = 1000%N /\ k_gid x = 1001%N /\
      NameModel.get_by_name (k_table x) (w "salsa20+umac") = Ok (Some (w "salsa20+umac", NameModel.GenericUmac, NameModel.M_generic (NameSpec.ci NameSpec.Salsa20) (w "uhash")))
  | _ => False
  end.
Proof. vm_compute. repeat split. Qed.
Example C79_modes_ex :
  snd (ex_boot false [] (secret8 ++ peer_p)) <> Failed /\
  ex_boot false ["--show-key"; "--machine-readable"] good = ([Out (w "4000000000000000000000000000000000000000000000000000000000000000" ++ [10%N])], Exited)%list /\
  ex_boot false ["--show-key"; "--generate-key"; "--verify-config"] good = ([], Exited) /\
  ex_boot false ["--verify-config"] "method ""aes"";" = ([], Failed) /\
  ex_boot false ["--show-key"] "secret ""0900000000000000000000000000000000000000000000000000000000000000"";" = ([], Failed) /\
  ex_boot true ["--verify-config"] (good ++ "mode tun;") = ([], Exited) /\ ex_boot true ["--verify-config"] good = ([], Failed) /\
  ex_boot false ["--verify-config"] "offload l2tp yes;mode multitap;persist interface no;" = ([], Exited) /\
  ex_boot false ["--verify-config"] "offload l2tp yes;mode multitap;" = ([], Failed).
Proof. split; [vm_compute; discriminate|]. repeat split; vm_compute; reflexivity. Qed.
Example C79_generate_ex : exists t, ex_boot false ["--generate-key"; "--machine-readable"] "" = ([Out t], Exited) /\
  t = (w "0002030405060708090a0b0c0d0e0f101112131415161718191a1b1c1d1e1f60" ++ [10%N])%list.
Proof. eexists. split; vm_compute; reflexivity. Qed.

(** A configuration that --verify-config accepts need not start: without a secret, without anybody to talk to, with an unknown user *)
Theorem C79_verify_suffices_refuted : forall text, In text [peer_p; secret8; secret8 ++ peer_p ++ "user ""nobody"";"] ->
  ~ (snd (ex_boot false ["--verify-config"] text) = Exited -> exists kp x, snd (ex_boot false [] text) = Running kp x).
Proof. intros text [<-|[<-|[<-|[]]]] X; destruct (X ltac:(vm_compute; reflexivity)) as (kp & x & Y); vm_compute in Y; discriminate Y. Qed.
(** An empty name of a method, which the configuration accepts, leads to an array of size 0 *)
Theorem C79_empty_name_refuted : ~ forall E B cwd H args, host_ok H -> sane E -> configure E B cwd args <> UB -> snd (boot E B cwd H args) <> Broken.
Proof.
  intros X. apply (X ex_env ex_obuild (w "/") (ex_host false) (map w ["--method"; ""; "--verify-config"]) (ex_host_ok false) C60_total_ex); vm_compute; [discriminate|reflexivity].
Qed.

Print Assumptions C79_verify.
Print Assumptions C79_generate.
Print Assumptions C79_show.
Print Assumptions C79_start.
Print Assumptions C79_dry_run.
Print Assumptions C79_shown.
Print Assumptions C79_fresh.
Print Assumptions C79_safe.
Print Assumptions C79_verify_suffices_refuted.
Print Assumptions C79_empty_name_refuted.
