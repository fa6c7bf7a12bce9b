(** C70: Signals and children *)
From Verif Require Import Base SigModel SigSpec SigProofs8.

(** A signal sent and then let through is acted upon before the next iteration of the main loop, and only then; the same for
    asynchronous children that have ended.  Nothing is done unasked, and no child is waited for that is not there. *)
Theorem C70_served : forall c s, run c s -> served (history s) /\ reaped (history s) /\ asked (history s) /\ ~ In TWaitError (history s).
Proof. exact (fun c s H => conj (run_served c s H) (conj (run_reaped c s H) (conj (run_asked c s H) (run_waits c s H)))). Qed.
(** No iteration follows once a terminating signal has been let through. *)
Theorem C70_stops : forall c s, run c s -> stops (history s).
Proof. exact run_stops. Qed.
Example C70_served_nonvacuous : forall e, exists s, run (mk_conf e 4) s /\ history s =
  [TEnded 7 false; TIter; TForked 9; TArrive SIGHUP; TOpen; TReload; TIter; TEnded 9 true; TArrive SIGTERM; TOpen; TReaped 9; TCleanup; TOpen].
Proof. intros e. apply (happens _ (life e)). destruct e; vm_compute; reflexivity. Qed.

(** The process does not wait while anything is left to do. *)
Theorem C70_sleep : forall c s, run c s -> (c_epoll c = false -> (0 < c_cap c)%nat) -> s_pc s = PSleep -> ~ outstanding s.
Proof. exact run_sleep. Qed.
Example C70_sleep_nonvacuous : forall e, exists s, run (mk_conf e 1) s /\ s_pc s = PSleep.
Proof. intros e. apply (ends_with _ ([EFork 3; EAdd] ++ goes (if e then 4 else 5) ++ [ENext [] WSleep])). destruct e; vm_compute; reflexivity. Qed.

(** Without epoll, signals are let through in every iteration.  With epoll they need not be: a loop that is always busy never ends,
    since epoll_pwait delivers signals only if nothing is ready. *)
Theorem C70_opens : forall c s, c_epoll c = false -> run c s -> opens (history s).
Proof. exact run_opens. Qed.
Theorem C70_opens_refuted : forall cap n, exists s, run (mk_conf true cap) s /\ over s = false /\
  exists h, history s = TArrive SIGTERM :: h /\ count_occ tev_eq_dec h TIter = n.
Proof. exact starved. Qed.
Example C70_opens_nonvacuous : exists s, run (mk_conf false 1) s /\ history s = [TIter; TOpen; TArrive SIGUSR2; TReset; TIter].
Proof. apply (happens _ (goes 4 ++ [EArrive SIGUSR2] ++ goes 8)). vm_compute. reflexivity. Qed.

(** The process ends by a signal that was sent, after the cleanup if it is a terminating one.  If a second terminating signal
    comes before it has ended, it exits with status 255 instead. *)
Theorem C70_ends : forall c s, run c s ->
  (forall g, s_pc s = PDead g -> In (TArrive g) (history s) /\ ((terminating g /\ In TCleanup (history s)) \/ unhandled g)) /\
  (forall n, s_pc s = PExit n -> n = 255%N /\ In TCleanup (history s) /\
     exists g h, g <> h /\ terminating g /\ terminating h /\ In (TArrive g) (history s) /\ In (TArrive h) (history s)).
Proof. exact run_ends. Qed.
Theorem C70_exit_refuted : forall e, exists s, run (mk_conf e 4) s /\ s_pc s = PExit 255.
Proof. exact exits. Qed.
Example C70_ends_nonvacuous : forall e, exists s, run (mk_conf e 4) s /\ s_pc s = PDead SIGTERM.
Proof. intros e. apply (ends_with _ (life e)). destruct e; vm_compute; reflexivity. Qed.

(** Signals interrupt the main thread only while it waits; at any other place they are just kept. *)
Theorem C70_deferred : forall c s g s', run c s -> ~ waiting (s_pc s) -> ~ fault g -> step c s (EArrive g) = Some s' ->
  s' = set_pending (s_pending s') (say (TArrive g) s) /\ (In g (s_pending s') <-> In g (s_pending s) \/ ~ ignored g).
Proof. exact run_kept. Qed.
Theorem C70_ignored : forall c s g, run c s -> over s = false -> ignored g -> step c s (EArrive g) = Some (say (TArrive g) s).
Proof. exact run_ignored. Qed.
Example C70_deferred_nonvacuous : forall e, exists s, run (mk_conf e 1) s /\ s_pc s = PReload.
Proof. intros e. apply (ends_with _ ([EArrive SIGHUP] ++ goes (if e then 4 else 3) ++ [ENext [SIGHUP] WIntr] ++ goes (if e then 1 else 4))). destruct e; vm_compute; reflexivity. Qed.
(** Commands start with no signal blocked and no handler, but with four signals ignored. *)
Theorem C70_commands : forall g, command_mask g = false /\ command_disp g <> Handler /\ (command_disp g = Ign <-> ignored g).
Proof. exact commands. Qed.
Example C70_commands_nonvacuous : command_disp SIGTERM = Dfl /\ command_disp SIGPIPE = Ign.
Proof. split; reflexivity. Qed.

Print Assumptions C70_served.
Print Assumptions C70_stops.
Print Assumptions C70_sleep.
Print Assumptions C70_opens.
Print Assumptions C70_opens_refuted.
Print Assumptions C70_ends.
Print Assumptions C70_exit_refuted.
Print Assumptions C70_deferred.
Print Assumptions C70_ignored.
Print Assumptions C70_commands.
