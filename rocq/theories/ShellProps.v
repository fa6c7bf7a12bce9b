(** C57: the environment of shell commands. *)
From Verif Require Import Base BufferModel NameModel AddrModel ShellModel ShellSpec ShellProofs.
From Coq Require Import String.

(** Every command runs with exactly the variables of [vars]: each is set to the value of the event or unset, whatever fastd itself was started
    with; only other variables are inherited, and NOTIFY_SOCKET is not.  No buffer overflows. *)
Theorem C57_environment : forall L key pid c inherited, libc_ok L -> key_ok key -> (pid < 2 ^ 32)%N -> command_ok c ->
  exists e, run_env L key pid c inherited = Ok e /\ env_is pid (vars L key c) inherited e.
Proof. exact run_env_ok. Qed.
Print Assumptions C57_environment.

(** The command of the nearest enclosing group that sets it is used, and none if no group does. *)
Theorem C57_nearest_group : forall (A : Type) (parents : list (option A)) group,
  match group_lookup group parents with
  | Some a => exists l r, group :: parents = l ++ Some a :: r /\ Forall (fun g => g = None) l
  | None => Forall (fun g => g = None) (group :: parents)
  end.
Proof. exact lookup_nearest. Qed.
Print Assumptions C57_nearest_group.

(** The manual says that INTERFACE, INTERFACE_MTU and LOCAL_KEY are set for all commands.  That is false: on-up
    of the shared interface and on-pre-up inherit LOCAL_KEY from the environment fastd was started in, on-pre-up also INTERFACE, and on-connect for a handshake with
    an unknown peer has no INTERFACE. *)
Definition ex_libc : libc :=
  mk_libc (fun ip => str "192.0.2.1") (fun ip => str "fe80::1") (fun s => Some (str "eth0")).
Definition ex_key : bytes := repeat 0xa5%N 32.
Definition ex_inherited : env := fun x => Some (str "inherited").
Definition value (e : res env) (k : string) : option bytes := match e with Ok e => e (str k) | _ => None end.
Theorem C57_all_commands_refuted :
  value (run_env ex_libc ex_key 7 (CUp (str "tap0") 1426) ex_inherited) "LOCAL_KEY" = Some (str "inherited") /\
  value (run_env ex_libc ex_key 7 CPreUp ex_inherited) "LOCAL_KEY" = Some (str "inherited") /\
  value (run_env ex_libc ex_key 7 CPreUp ex_inherited) "INTERFACE" = Some (str "inherited") /\
  value (run_env ex_libc ex_key 7 (CConnect None None None (AInet [192; 0; 2; 1] [0x27; 0x10])%N) ex_inherited) "INTERFACE" = None.
Proof. vm_compute. repeat split. Qed.
Print Assumptions C57_all_commands_refuted.

(** An example: on-establish with a link-local IPv6 address *)
Definition ex_peer : peer := mk_peer (Some (str "gateway")) None (Some (str "tap0", 1426%N)) (repeat 0x0f%N 32).
Definition ex_ll : saddr := AInet6 ([0xfe; 0x80] ++ repeat 0 13 ++ [1])%N [0x27; 0x10]%N (repeat 0%N 4) [3; 0; 0; 0]%N.
Example C57_example :
  libc_ok ex_libc /\ key_ok ex_key /\ command_ok (CEstablish ex_peer AUnspec ex_ll) /\
  let e := run_env ex_libc ex_key 12345 (CEstablish ex_peer AUnspec ex_ll) ex_inherited in
  value e "PEER_ADDRESS" = Some (str "fe80::1%eth0") /\ value e "PEER_PORT" = Some (str "10000") /\
  value e "LOCAL_ADDRESS" = None /\ value e "INTERFACE_MTU" = Some (str "1426") /\ value e "PEER_NAME" = Some (str "gateway") /\
  value e "PEER_KEY" = Some (str "0f0f0f0f0f0f0f0f0f0f0f0f0f0f0f0f0f0f0f0f0f0f0f0f0f0f0f0f0f0f0f0f") /\
  value e "FASTD_PID" = Some (str "12345") /\ value e "NOTIFY_SOCKET" = None /\ value e "PATH" = Some (str "inherited").
Proof.
  assert (Z : forall s, forallb (fun c => negb (N.eqb c 0)) s = true -> zero_free s).
  { intros s H c Hc. rewrite forallb_forall in H. specialize (H c Hc). apply negb_true_iff, N.eqb_neq in H. exact H. }
  assert (F : forall b n, (b < 256)%N -> wf_bytes (repeat b n)).
  { intros b n H. apply Forall_forall. intros x Hx. apply repeat_spec in Hx. subst x. exact H. }
  split; [|split; [|split]].
  - repeat split; try (cbn; lia); try (apply Z; reflexivity).
    + injection H as <-. cbn. lia.
    + injection H as <-. apply Z. reflexivity.
  - split; [reflexivity|]. apply F. reflexivity.
  - repeat split; try (apply F; reflexivity).
    + intros n m [E|E]; cbn in E; [discriminate|]. injection E as <- <-. reflexivity.
    + repeat constructor.
    + repeat constructor.
    + repeat constructor.
  - vm_compute. repeat split.
Qed.
