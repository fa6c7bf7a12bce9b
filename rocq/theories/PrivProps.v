(** C62: the process has the configured user and exactly the privileges that it needs. *)
From Verif Require Import Base BufferModel MethodModel AddrModel LexModel LexSpec ConfigModel ConfigSpec ConfigProps OptionsModel OptionsSpec OptionsProps PrivModel PrivSpec PrivProofs
  PrivProofs2 PrivProofs3 PrivProofs4.
From Coq Require Import String.
Local Open Scope N_scope.

(** In the main loop all UIDs and GIDs are those of the configured user and group; without them nothing has changed *)
Theorem C62_identity : forall S o k0 t k, init S o k0 = (t, Some k) -> exists uid gid, target S (o_conf o) k0 uid gid /\ switched (o_conf o) k0 uid gid k.
Proof. exact init_identity. Qed.

(** The supplementary groups are replaced before the PID file is written, if the system allows it *)
Theorem C62_groups : forall S o k0 uid gid t r, init S o k0 = (t, r) -> target S (o_conf o) k0 uid gid -> plain k0 -> ruid k0 = 0 \/ uid <> 0 ->
  has (effective k0) SETGID -> s_setgroups S = true ->
  let l := if switches (o_conf o) then target_groups S (o_conf o) gid else supp k0 in
  (forall k, r = Some k -> supp k = l) /\
  (forall e k, In (e, k) t -> match e with EvPid | EvReady | EvUp | EvDirs => supp k = l | EvStatus | EvBind | EvPreUp => supp k = supp k0 | EvIface => c_mode (o_conf o) = Tap \/ supp k = l end).
Proof. exact init_groups. Qed.

(** Exactly the capabilities that are needed are retained *)
Theorem C62_caps : forall S o k0 t k, init S o k0 = (t, Some k) -> s_caps S = true -> c_caps (o_conf o) <> CapsOff ->
  (forall cap, has (permitted k) cap <-> retains (o_conf o) cap) /\ (forall cap, has (effective k) cap <-> retains (o_conf o) cap) /\ inheritable k = 0 /\ ambient k = 0.
Proof. exact init_caps. Qed.

(** And no sequence of system calls, of the process or of a program that it executes, gets anything back *)
Theorem C62_irrevocable : forall S o k0 uid gid t k, init S o k0 = (t, Some k) -> target S (o_conf o) k0 uid gid -> plain k0 -> s_caps S = true -> c_caps (o_conf o) <> CapsOff -> uid <> 0 ->
  forall k', calls k k' -> runs_as uid gid k' /\ supp k' = supp k /\ forall cap, has (permitted k') cap \/ has (effective k') cap -> retains (o_conf o) cap.
Proof. exact init_irrevocable. Qed.

(** What happens until then, in which order and with which credentials *)
Theorem C62_order : forall S o k0 t r, init S o k0 = (t, r) -> exists rest, happenings S o = (map fst t ++ rest)%list /\ (r <> None -> rest = []).
Proof. exact init_order. Qed.
Theorem C62_events : forall S o k0 uid gid t r, init S o k0 = (t, r) -> target S (o_conf o) k0 uid gid -> plain k0 -> ruid k0 = 0 \/ uid <> 0 ->
  forall e k, In (e, k) t -> as_at_event S (o_conf o) k0 uid gid e k.
Proof. exact init_events. Qed.

(** The commands that are run later have no privileges, unless the user is root *)
Theorem C62_commands : forall S o k0 uid gid t k, init S o k0 = (t, Some k) -> target S (o_conf o) k0 uid gid -> plain k0 -> uid <> 0 ->
  ruid k0 = 0 \/ (s_caps S = true /\ c_caps (o_conf o) <> CapsOff) -> runs_as uid gid (exec k) /\ permitted (exec k) = 0 /\ effective (exec k) = 0.
Proof. exact init_commands. Qed.

(** Without dropping them, the capabilities of root remain permitted, but none is effective *)
Theorem C62_off : forall S o k0 uid gid t k, init S o k0 = (t, Some k) -> target S (o_conf o) k0 uid gid -> plain k0 -> ruid k0 = 0 -> uid <> 0 ->
  s_caps S = true -> c_caps (o_conf o) = CapsOff -> permitted k = permitted k0 /\ effective k = 0.
Proof. exact init_not_dropped. Qed.

(** What is retained suffices for what happens later, but for one case *)
Theorem C62_sufficient : forall E B cwd args S o k0 t k, configure E B cwd args = Ok (Run o) -> init S o k0 = (t, Some k) -> s_caps S = true -> c_caps (o_conf o) <> CapsOff ->
  forall (l : later (o_conf o)) cap, happens (o_conf o) l -> requires (o_conf o) l cap -> ~ mark_gap (o_conf o) l -> (l = NewIface -> c_caps (o_conf o) <> CapsForce) -> has (effective k) cap.
Proof. exact init_sufficient. Qed.

(** * Examples, and what is false *)

Local Open Scope string_scope.
(** A configuration file *)
Definition ex_files (text : string) : env :=
  Env (e_build ex_env) (e_pton4 ex_env) (e_pton6 ex_env) (fun a => a) (fun _ _ => false) (fun _ _ => false) (w "ec25519-fhmqvc") (fun _ => true) ([], [], false)
      (fun _ name => if bytes_eqb name (w "f") then Some (w text, [500]%nat, false) else None) (fun _ d => Some d) (fun _ => w "/").
Definition ex_node (args : list string) (text : string) : ost :=
  match configure (ex_files text) ex_obuild (w "/") (map w (args ++ ["-c"; "f"])) with
  | Ok (Run o) => o
  | _ => start
  end.
Definition all_caps : N := N.ones 41.
Definition root : cred := Cred 0 0 0 0 0 0 [0; 4]%N all_caps all_caps 0 all_caps 0 false.
Definition ex_sys : sys :=
  Sys true (fun u => if bytes_eqb u (w "u") then Some (1000, 1001) else None) (fun g => if bytes_eqb g (w "g") then Some 1002 else None) (fun _ g => [g; 44])
    true (fun _ => true) (fun k => N.testbit (effective k) NET_BIND_SERVICE) (fun k => N.testbit (effective k) NET_ADMIN) (fun _ => true).
Definition in_main (o : ost) : list (event * cred) * option cred := init ex_sys o root.
Lemma root_plain : plain root.
Proof. split; [repeat split; reflexivity|]. intros cap H. exact H. Qed.

Definition key64 : string := "00000000000000000000000000000000000000000000000000000000000000a1".
(** "aren't dropped at all" *)
Definition ex_off : ost := Eval vm_compute in ex_node [] "user ""u""; drop capabilities no;".
Theorem C62_off_refuted : ~ forall S o k0 t k, init S o k0 = (t, Some k) -> plain k0 -> s_caps S = true -> c_caps (o_conf o) = CapsOff -> forall cap, has (effective k0) cap -> has (effective k) cap.
Proof.
  intros H. destruct (in_main ex_off) as [t [k|]] eqn:E; [|vm_compute in E; discriminate E].
  assert (X := H ex_sys ex_off root t k E root_plain eq_refl ltac:(vm_compute; reflexivity) NET_ADMIN ltac:(vm_compute; reflexivity)).
  assert (T : target ex_sys (o_conf ex_off) root 1000 1001) by (split; [exists 1001; vm_compute; reflexivity|exists 1000; vm_compute; reflexivity]).
  destruct (C62_off ex_sys ex_off root 1000 1001 t k E T root_plain eq_refl ltac:(discriminate) eq_refl ltac:(vm_compute; reflexivity)) as [_ Z].
  unfold has in X. rewrite Z in X. discriminate X.
Qed.

(** A packet mark, with a fixed port for IPv4 and a port of its own for each peer for IPv6 *)
Definition ex_mark : ost := Eval vm_compute in ex_node [] "user ""u""; packet mark 5; bind 0.0.0.0:10; bind [::1];".
Theorem C62_mark_refuted : ~ forall E B cwd args S o k0 t k, configure E B cwd args = Ok (Run o) -> init S o k0 = (t, Some k) -> s_caps S = true -> c_caps (o_conf o) = CapsOn ->
  forall (l : later (o_conf o)) cap, happens (o_conf o) l -> requires (o_conf o) l cap -> has (effective k) cap.
Proof.
  intros H. destruct (in_main ex_mark) as [t [k|]] eqn:E; [|vm_compute in E; discriminate E].
  set (o := ex_mark) in *.
  assert (HC : configure (ex_files "user ""u""; packet mark 5; bind 0.0.0.0:10; bind [::1];") ex_obuild (w "/") [w "-c"; w "f"] = Ok (Run o)) by (vm_compute; reflexivity).
  assert (M : c_mark (o_conf o) <> 0) by (vm_compute; discriminate).
  assert (X := H _ _ _ _ ex_sys o root t k HC E eq_refl eq_refl (NewSocket true (bind_default (o_conf o) true)) NET_ADMIN).
  assert (A : has (effective k) NET_ADMIN).
  { apply X; [|left; split; [reflexivity|exact M]]. split; [|split; [reflexivity|]].
    - intros (b & K & D). vm_compute in K. injection K as <-. discriminate D.
    - intros K. vm_compute in K. discriminate K. }
  destruct (C62_caps ex_sys o root t k E eq_refl) as (_ & Z & _); [vm_compute; discriminate|]. apply Z in A.
  destruct A as [[_ [[(K & _) _]|[(_ & K & _)|K]]]|[[K _]|[K _]]]; try (vm_compute in K; discriminate K).
  - apply K. vm_compute. reflexivity.
  - apply K. vm_compute. eexists. split; reflexivity.
Qed.

(** Privileges are dropped early, but the interfaces of the peers are created after that *)
Definition ex_early : ost := Eval vm_compute in ex_node [] ("user ""u""; mode tun; drop capabilities early; peer ""p"" { key """ ++ key64 ++ """; }").
Definition ex_late : ost := Eval vm_compute in ex_node [] ("user ""u""; mode tun; drop capabilities yes; peer ""p"" { key """ ++ key64 ++ """; }").
Theorem C62_early_iface_refuted : ~ forall S o k0 t r k, init S o k0 = (t, r) -> plain k0 -> s_caps S = true -> c_caps (o_conf o) <> CapsForce -> has (permitted k0) NET_ADMIN ->
  In (EvIface, k) t -> has (effective k) NET_ADMIN.
Proof.
  intros H. destruct (in_main ex_early) as [t r] eqn:E.
  assert (X := fun k => H ex_sys ex_early root t r k E root_plain eq_refl ltac:(vm_compute; discriminate) ltac:(vm_compute; reflexivity)).
  vm_compute in E. injection E as <- <-. specialize (X _ (or_intror (or_intror (or_intror (or_introl eq_refl))))). vm_compute in X. discriminate X.
Qed.
(** As an interface cannot be created, the program ends *)
Example C62_early_iface_ex : snd (in_main ex_early) = None /\ match snd (in_main ex_late) with Some k => runs_as 1000 1001 k | None => False end.
Proof. split; [vm_compute; reflexivity|]. vm_compute. repeat split. Qed.
(** At that time the start of the service has already been reported to be successful *)
Theorem C62_ready_refuted : ~ forall S o k0 t k, init S o k0 = (t, None) -> ~ In (EvReady, k) t.
Proof.
  intros H. destruct (in_main ex_early) as [t r] eqn:E. assert (X := fun k => H ex_sys ex_early root t k). vm_compute in E. injection E as <- <-.
  refine (X _ ltac:(vm_compute; reflexivity) _). right. right. left. reflexivity.
Qed.

Definition ex_empty : ost := Eval vm_compute in ex_node [] "".
(** Without a user, the commands of a process of root have all capabilities *)
Theorem C62_root_commands_refuted : ~ forall S o k0 t k, init S o k0 = (t, Some k) -> plain k0 -> s_caps S = true -> c_caps (o_conf o) = CapsOn -> forall cap, has (effective (exec k)) cap -> has (permitted k) cap.
Proof.
  intros H. destruct (in_main ex_empty) as [t [k|]] eqn:E; [|vm_compute in E; discriminate E].
  assert (X := H ex_sys ex_empty root t k E root_plain eq_refl ltac:(vm_compute; reflexivity) SETUID). vm_compute in E. injection E as _ <-.
  specialize (X ltac:(vm_compute; reflexivity)). vm_compute in X. discriminate X.
Qed.

Print Assumptions C62_identity.
Print Assumptions C62_groups.
Print Assumptions C62_caps.
Print Assumptions C62_irrevocable.
Print Assumptions C62_order.
Print Assumptions C62_events.
Print Assumptions C62_commands.
Print Assumptions C62_off.
Print Assumptions C62_sufficient.
Print Assumptions C62_off_refuted.
Print Assumptions C62_mark_refuted.
Print Assumptions C62_early_iface_refuted.
Print Assumptions C62_ready_refuted.
Print Assumptions C62_root_commands_refuted.

(** A user and a group, a PID file, a status socket, a TAP interface: the trace, and the end *)
Definition ex_full : ost := Eval vm_compute in ex_node ["--pid-file"; "p"] "user ""u""; group ""g""; status socket ""s""; bind 0.0.0.0 interface ""eth0"";".
Example C62_full_ex : let '(t, r) := in_main ex_full in
  map fst t = [EvStatus; EvBind; EvPreUp; EvIface; EvPid; EvReady; EvUp; EvDirs] /\
  map (fun x => (euid (snd x), egid (snd x))) t = [(1000, 1002); (0, 0); (0, 0); (0, 0); (1000, 1002); (0, 0); (0, 0); (1000, 1002)] /\
  match r with Some k => runs_as 1000 1002 k /\ supp k = [1002; 44] /\ permitted k = 2 ^ NET_RAW /\ effective k = 2 ^ NET_RAW | None => False end.
Proof. vm_compute. split; [reflexivity|]. split; [reflexivity|]. split; [|split; [reflexivity|split; reflexivity]]. repeat split. Qed.
Example C62_target_ex : target ex_sys (o_conf ex_full) root 1000 1002.
Proof. split; [exists 1001; vm_compute; reflexivity|vm_compute; reflexivity]. Qed.
(** Interfaces that are to be created later, a socket on a device *)
Example C62_sufficient_ex : match in_main (ex_node [] "user ""u""; mode tun; persist interface no; bind 0.0.0.0 interface ""eth0"";") with
  | (_, Some k) => effective k = N.lor (2 ^ NET_ADMIN) (2 ^ NET_RAW)
  | _ => False
  end.
Proof. vm_compute. reflexivity. Qed.
(** Nobody else than the start user, with nothing but a capability for the interface *)
Example C62_unprivileged_ex :
  let k0 := Cred 7 7 7 8 8 8 [] (2 ^ NET_ADMIN) 0 0 all_caps 0 false in
  match init (Sys true (fun _ => None) (fun _ => None) (fun _ _ => []) true (fun _ => true) (fun _ => true) (fun k => N.testbit (effective k) NET_ADMIN) (fun _ => true)) ex_empty k0 with
  | (_, Some k) => permitted k = 0 /\ runs_as 7 8 k
  | _ => False
  end.
Proof. vm_compute. split; [reflexivity|]. repeat split. Qed.
(** What a process with CAP_SETUID could do *)
Example C62_calls_ex : calls root (with_caps all_caps 0 0 0 (with_uids 0 5 0 root)).
Proof. apply (calls_uid 0 5 0 root (with_caps all_caps 0 0 0 (with_uids 0 5 0 root))); [vm_compute; reflexivity|apply calls_none]. Qed.
