(** C76: a program started in the background reports whether it is ready. *)
From Verif Require Import Base DaemonModel DaemonSpec DaemonProofs2.
Local Open Scope N_scope.

(** The status is 0 only if the daemon is ready, and otherwise 1, for which a call of the parent failed or the daemon was lost before *)
Theorem C76_status : forall C s n, ordinary C -> reachable C s -> s_parent s = PGone (Some n) ->
  (n = 0 /\ ready s /\ s_failed s = false) \/ (n = 1 /\ (s_failed s = true \/ lost s)).
Proof. exact parent_result. Qed.

(** The parent does not leave the first child behind *)
Theorem C76_waited : forall C s n, ordinary C -> reachable C s -> s_parent s = PGone (Some n) -> s_failed s = false -> s_child s = CReaped.
Proof. exact child_waited. Qed.

(** The parent does not wait forever: as long as it waits, one of the processes has something to do, and they make a limited number of calls *)
Theorem C76_not_stuck : forall C s, ordinary C -> reachable C s -> (forall st, s_parent s <> PGone st) -> exists e s', succeeds e = true /\ step C e s = Some s'.
Proof. exact not_stuck. Qed.
Theorem C76_calls : forall C l s, run C l start = Some s -> (List.length (filter own l) <= 83)%nat.
Proof. exact few_calls. Qed.

(** The daemon does not lead a session, and unless a call of the first child failed, it is in a new one *)
Theorem C76_detached : forall C l s, ordinary C -> run C l start = Some s -> s_daemon s <> DNone ->
  s_dsession s <> Daemon /\ (~ In (EChild false) l -> s_dsession s = Child).
Proof. exact detached. Qed.

(** Commands do not inherit the pipe *)
Theorem C76_commands : forall C s e, ordinary C -> reachable C s -> In (HRun, e) (s_helpers s) -> e = none.
Proof. exact nothing_inherited. Qed.

Definition usual : setup := Setup 4 5 1024 true true.
(** pipe() returns 1 and 2 if the standard descriptors are closed when the program starts: 0 is taken by /dev/urandom, random.c L23 *)
Definition without : setup := Setup 1 2 1024 true true.
Definition ok (e : bool -> event) (n : nat) : list event := repeat (e true) n.
Definition going : list event := ok EParent 3 ++ ok EChild 4 ++ ok EParent 1.
Definition state_after (C : setup) (l : list event) : state := match run C l start with Some s => s | None => start end.
Definition end_of (C : setup) (l : list event) : option state := run C l start.

(** It is not true that the daemon runs if the status is 0: dropping capabilities and reading the peer directories can still fail *)
Theorem C76_up_refuted : ~ (forall C s, ordinary C -> reachable C s -> s_parent s = PGone (Some 0) -> s_daemon s <> DGone).
Proof.
  intros H. pose (l := going ++ ok EDaemon 18 ++ ok EParent 1 ++ [EDaemon false]). pose (s := state_after usual l). assert (R : run usual l start = Some s) by (vm_compute; reflexivity).
  apply (H usual s); [unfold ordinary; cbn; lia|exists l; exact R| |]; vm_compute; reflexivity.
Qed.
(** Nor that the status is right if the standard descriptors were closed: a message of the daemon is taken for it *)
Theorem C76_closed_refuted : ~ (forall C s n, reachable C s -> s_parent s = PGone (Some n) -> n <> 0 -> s_failed s = true \/ lost s).
Proof.
  intros H. pose (l := going ++ ok EDaemon 4 ++ [ELog [50; 48; 50; 54]] ++ ok EParent 1 ++ ok EDaemon 10). pose (s := state_after without l). assert (R : run without l start = Some s) by (vm_compute; reflexivity).
  assert (X : s_failed s = true \/ lost s).
  { apply (H without s 50); [exists l; exact R| |discriminate]. vm_compute. reflexivity. }
  clear R. vm_compute in X. destruct X as [X|[[X|[X _]] _]]; discriminate X.
Qed.
(** And then the parent waits for a command that was started, though the daemon is gone *)
Theorem C76_stuck_refuted : ~ (forall C s, reachable C s -> (forall st, s_parent s <> PGone st) -> exists e s', succeeds e = true /\ step C e s = Some s').
Proof.
  intros H. pose (l := going ++ ok EDaemon 11 ++ [EHelper 0; EDaemon false]). pose (s := state_after without l). assert (R : run without l start = Some s) by (vm_compute; reflexivity).
  destruct (H without s) as (e & s' & S & X); [exists l; exact R|intros st Y; vm_compute in Y; discriminate Y|].
  clear R. destruct e as [[|]|[|]|[|]|t|t|i|i t|i| | |]; try discriminate S; try (vm_compute in X; discriminate X).
  destruct i as [|[|i]]; vm_compute in X; discriminate X.
Qed.

Print Assumptions C76_status.
Print Assumptions C76_waited.
Print Assumptions C76_not_stuck.
Print Assumptions C76_calls.
Print Assumptions C76_detached.
Print Assumptions C76_commands.
Print Assumptions C76_up_refuted.
Print Assumptions C76_closed_refuted.
Print Assumptions C76_stuck_refuted.

(** The usual course *)
Example C76_status_ex : ordinary usual /\ match end_of usual (going ++ ok EDaemon 17 ++ ok EParent 1 ++ ok EDaemon 7) with
  | Some s => s_parent s = PGone (Some 0) /\ s_daemon s = DUp /\ s_child s = CReaped /\ s_dsession s = Child /\ s_helpers s = [(HNew, Ends false true); (HNew, none)]
  | None => False end.
Proof. split; [unfold ordinary; cbn; lia|]. vm_compute. repeat (split; [reflexivity|]). reflexivity. Qed.
(** The configuration turns out to be wrong, or the second fork fails *)
Example C76_lost_ex : match end_of usual (going ++ [EDaemon true; ELog [50]; EDaemon false] ++ ok EParent 1) with
  | Some s => s_parent s = PGone (Some 1) /\ s_daemon s = DGone /\ s_failed s = false | None => False end.
Proof. vm_compute. repeat (split; [reflexivity|]). reflexivity. Qed.
Example C76_fork_ex : match end_of usual (ok EParent 3 ++ ok EChild 2 ++ [EChild false] ++ ok EParent 2) with
  | Some s => s_parent s = PGone (Some 1) /\ s_daemon s = DNone /\ s_failed s = false | None => False end.
Proof. vm_compute. repeat (split; [reflexivity|]). reflexivity. Qed.
(** The parent waits for the daemon *)
Example C76_waits_ex : end_of usual (going ++ ok EDaemon 16 ++ ok EParent 1) = None.
Proof. reflexivity. Qed.
Example C76_commands_ex : match end_of usual (going ++ ok EDaemon 11 ++ [EHelper 0]) with Some s => s_helpers s = [(HRun, none)] | None => False end.
Proof. vm_compute. reflexivity. Qed.
