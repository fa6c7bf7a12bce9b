(** Signals, the main loop and asynchronous child processes.  Source: src/fastd.c (on_signal and
    init_signals L50-124, reap_zombies L533-555, handle_signals L558-580, run and fastd_main, terminate),
    src/polling.c (when signals are unblocked), src/shell.c (asynchronous commands), src/async.c (the
    notification that on_signal sends without epoll).

    The process is a machine; between any two of its steps signals arrive, children end, and helper
    threads start and wait for their own children or send notifications.  What tasks, packets and
    reloads do is left out, except that they run commands.  Helper threads are started after init_signals
    and inherit its mask, so all signals to the process are for the main thread.  Standard signals are
    not queued: a second one while the first is pending is lost.  SIGKILL and SIGSTOP are left out. *)
From Verif Require Import Base.

Inductive sig : Set :=
| SIGHUP | SIGINT | SIGQUIT | SIGTERM | SIGUSR1 | SIGUSR2 | SIGCHLD | SIGPIPE | SIGTTIN | SIGTTOU
| SIGILL | SIGABRT | SIGFPE | SIGSEGV
| SIGOTHER (n : N) (k : bool).     (* any other; [k]: its default action ends the process *)
Definition sig_eq_dec (a b : sig) : {a = b} + {a <> b}.
Proof. decide equality; [apply Bool.bool_dec | apply N.eq_dec]. Defined.
Definition sig_eqb (a b : sig) : bool := if sig_eq_dec a b then true else false.
Inductive disp : Set := Dfl | Ign | Handler.

Definition kills (g : sig) : bool := match g with SIGCHLD => false | SIGOTHER _ k => k | _ => true end.

(** [init_signals]: the mask and the actions *)
Definition init_mask (g : sig) : bool := match g with SIGILL | SIGABRT | SIGFPE | SIGSEGV => false | _ => true end.
Definition init_disp (g : sig) : disp :=
  match g with
  | SIGHUP | SIGUSR2 | SIGCHLD | SIGTERM | SIGQUIT | SIGINT => Handler
  | SIGPIPE | SIGTTIN | SIGTTOU | SIGUSR1 => Ign
  | _ => Dfl
  end.
Definition no_mask (_ : sig) : bool := false.

(** A child: its pid, whether it belongs to [ctx.async_pids] (or a thread waits for it), whether it has ended *)
Record kid : Set := mk_kid { k_pid : N; k_async : bool; k_ended : bool }.

(** Where the main thread is *)
Inductive pc : Set :=
| PInit                 (* after init_signals *)
| PTop                  (* the condition of the loop in fastd_main *)
| PTasks                (* fastd_task_handle *)
| PPoll                 (* fastd_poll_handle *)
| PUnblocked            (* without epoll: between pthread_sigmask and poll *)
| PWait                 (* in poll or epoll_pwait, not waiting *)
| PSleep                (* waiting there *)
| PBlock (ready async : bool)   (* without epoll: between poll and pthread_sigmask *)
| PFds (async : bool)   (* handling the ready descriptors *)
| PSig1 | PReload | PSig2 | PReset | PSig3 | PReap (i : nat)   (* handle_signals *)
| PCleanup | PTerm1 | PTerm2 | PTerm3
| PDead (g : sig)       (* ended by a signal *)
| PExit (status : N).   (* ended by return from main *)

(** What happens, for the statements *)
Inductive tev : Set :=
| TArrive (g : sig) | TEnded (pid : N) (async : bool) | TForked (pid : N)
| TIter                 (* an iteration of the main loop starts *)
| TOpen                 (* all pending signals have been delivered *)
| TReload | TReset | TReaped (pid : N) | TWaitError | TCleanup.

Record st : Set := mk_st {
  s_pc : pc;
  s_mask : sig -> bool;
  s_disp : sig -> disp;
  s_pending : list sig;
  s_reload : bool; s_reset : bool; s_child : bool; s_term : option sig;
  s_queue : nat;               (* notifications that can be read *)
  s_kids : list kid;
  s_forked : option N;         (* forked, not yet in async_pids *)
  s_pids : list N;             (* ctx.async_pids *)
  s_trace : list tev           (* the latest first *)
}.
Definition set_pc v s := mk_st v (s_mask s) (s_disp s) (s_pending s) (s_reload s) (s_reset s) (s_child s) (s_term s) (s_queue s) (s_kids s) (s_forked s) (s_pids s) (s_trace s).
Definition set_mask v s := mk_st (s_pc s) v (s_disp s) (s_pending s) (s_reload s) (s_reset s) (s_child s) (s_term s) (s_queue s) (s_kids s) (s_forked s) (s_pids s) (s_trace s).
Definition set_disp v s := mk_st (s_pc s) (s_mask s) v (s_pending s) (s_reload s) (s_reset s) (s_child s) (s_term s) (s_queue s) (s_kids s) (s_forked s) (s_pids s) (s_trace s).
Definition set_pending v s := mk_st (s_pc s) (s_mask s) (s_disp s) v (s_reload s) (s_reset s) (s_child s) (s_term s) (s_queue s) (s_kids s) (s_forked s) (s_pids s) (s_trace s).
Definition set_reload v s := mk_st (s_pc s) (s_mask s) (s_disp s) (s_pending s) v (s_reset s) (s_child s) (s_term s) (s_queue s) (s_kids s) (s_forked s) (s_pids s) (s_trace s).
Definition set_reset v s := mk_st (s_pc s) (s_mask s) (s_disp s) (s_pending s) (s_reload s) v (s_child s) (s_term s) (s_queue s) (s_kids s) (s_forked s) (s_pids s) (s_trace s).
Definition set_child v s := mk_st (s_pc s) (s_mask s) (s_disp s) (s_pending s) (s_reload s) (s_reset s) v (s_term s) (s_queue s) (s_kids s) (s_forked s) (s_pids s) (s_trace s).
Definition set_term v s := mk_st (s_pc s) (s_mask s) (s_disp s) (s_pending s) (s_reload s) (s_reset s) (s_child s) v (s_queue s) (s_kids s) (s_forked s) (s_pids s) (s_trace s).
Definition set_queue v s := mk_st (s_pc s) (s_mask s) (s_disp s) (s_pending s) (s_reload s) (s_reset s) (s_child s) (s_term s) v (s_kids s) (s_forked s) (s_pids s) (s_trace s).
Definition set_kids v s := mk_st (s_pc s) (s_mask s) (s_disp s) (s_pending s) (s_reload s) (s_reset s) (s_child s) (s_term s) (s_queue s) v (s_forked s) (s_pids s) (s_trace s).
Definition set_forked v s := mk_st (s_pc s) (s_mask s) (s_disp s) (s_pending s) (s_reload s) (s_reset s) (s_child s) (s_term s) (s_queue s) (s_kids s) v (s_pids s) (s_trace s).
Definition set_pids v s := mk_st (s_pc s) (s_mask s) (s_disp s) (s_pending s) (s_reload s) (s_reset s) (s_child s) (s_term s) (s_queue s) (s_kids s) (s_forked s) v (s_trace s).
Definition say v s := mk_st (s_pc s) (s_mask s) (s_disp s) (s_pending s) (s_reload s) (s_reset s) (s_child s) (s_term s) (s_queue s) (s_kids s) (s_forked s) (s_pids s) (v :: s_trace s).

(** With or without epoll; the number of notifications the socket holds at most *)
Record conf : Set := mk_conf { c_epoll : bool; c_cap : nat }.

(** sendmsg to the notification socket; it fails if the socket is full *)
Definition enqueue (c : conf) (s : st) : st := if (s_queue s <? c_cap c)%nat then set_queue (S (s_queue s)) s else s.

(** [on_signal] *)
Definition on_signal (c : conf) (g : sig) (s : st) : st :=
  let nop := fun s => if c_epoll c then s else enqueue c s in
  match g with
  | SIGHUP => nop (set_reload true s)
  | SIGUSR2 => nop (set_reset true s)
  | SIGCHLD => nop (set_child true s)
  | SIGTERM | SIGQUIT | SIGINT => nop (set_term (Some g) s)
  | _ => s
  end.

Definition over (s : st) : bool := match s_pc s with PDead _ | PExit _ => true | _ => false end.

(** Delivery of a signal *)
Definition deliver (c : conf) (g : sig) (s : st) : st :=
  if over s then s
  else
    match s_disp s g with
    | Ign => s
    | Handler => on_signal c g s
    | Dfl => if kills g then set_pc (PDead g) s else s
    end.
Definition remove (g : sig) (l : list sig) : list sig := filter (fun h => negb (sig_eqb h g)) l.
Definition deliver1 (c : conf) (s : st) (g : sig) : st := deliver c g (set_pending (remove g (s_pending s)) s).
Definition member (g : sig) (l : list sig) : bool := existsb (sig_eqb g) l.

(** The kernel generates a signal.  In epoll_pwait the mask is empty, but the signal is delivered on return; without epoll,
    a signal handler ends the waiting. *)
Definition generate (c : conf) (g : sig) (s : st) : st :=
  match s_disp s g with
  | Ign => s
  | _ =>
      if s_mask s g || (c_epoll c && match s_pc s with PWait | PSleep => true | _ => false end) then
        let s := if member g (s_pending s) then s else set_pending (s_pending s ++ [g]) s in
        match s_pc s with PSleep => set_pc PWait s | _ => s end
      else
        let s := match s_pc s with PSleep => set_pc PWait s | _ => s end in
        deliver c g s
  end.

Definition same (a b : list sig) : bool := forallb (fun g => member g b) a && forallb (fun g => member g a) b.
Definition known (pid : N) (s : st) : bool := existsb (fun k => N.eqb (k_pid k) pid) (s_kids s).
Definition end_kid (pid : N) (l : list kid) : list kid := map (fun k => if N.eqb (k_pid k) pid then mk_kid pid (k_async k) true else k) l.
Definition drop_kid (pid : N) (l : list kid) : list kid := filter (fun k => negb (N.eqb (k_pid k) pid)) l.
Definition find_kid (pid : N) (l : list kid) : option kid := find (fun k => N.eqb (k_pid k) pid) l.

(** VECTOR_DELETE *)
Definition delete {A} (i : nat) (l : list A) : list A := firstn i l ++ skipn (S i) l.

(** Results of poll or epoll_pwait.  The list of [WReady] and [WTimeout]: signals delivered on return of epoll_pwait although
    it was successful (none on Linux). *)
Inductive wait : Set := WSleep | WIntr | WReady (async : bool) (l : list sig) | WTimeout (l : list sig).

Inductive ev : Set :=
| EArrive (g : sig)              (* a signal is sent to the process *)
| EEnd (pid : N)                 (* a child ends *)
| EForkSync (pid : N)            (* a command whose end is waited for *)
| EWaitSync (pid : N)
| ENotify                        (* a helper thread sends a notification *)
| EFork (pid : N)                (* an asynchronous command *)
| EAdd                           (* … and its entry in async_pids *)
| ENext (order : list sig) (w : wait).   (* the main thread goes on; pending signals are delivered in this order *)

(** Places where commands are run *)
Definition runs_commands (p : pc) : bool :=
  match p with PInit | PTasks | PFds _ | PReload | PReset | PCleanup => true | _ => false end.

Definition deliver_all (c : conf) (order : list sig) (s : st) : option st :=
  if same order (s_pending s) then Some (say TOpen (fold_left (deliver1 c) order s)) else None.
(** Going on, unless a signal has ended the process *)
Definition goto (p : pc) (s : st) : st := if over s then s else set_pc p s.

(** fastd_poll_handle *)
Definition wait_step (c : conf) (order : list sig) (w : wait) (s : st) : option st :=
  if c_epoll c then
    match w with
    | WSleep => match s_pending s with [] => Some (set_pc PSleep s) | _ => None end
    | WIntr => match s_pending s with
               | [] => None
               | _ => option_map (fun s => goto PSig1 (set_mask init_mask s)) (deliver_all c order s)
               end
    | WReady async l =>
        if forallb (fun g => member g (s_pending s)) l && (negb async || (0 <? s_queue s)%nat)
        then Some (goto (PFds async) (set_mask init_mask (fold_left (deliver1 c) l s))) else None
    | WTimeout l =>
        if forallb (fun g => member g (s_pending s)) l
        then Some (goto PSig1 (set_mask init_mask (fold_left (deliver1 c) l s))) else None
    end
  else
    match w with
    | WSleep => if (s_queue s =? 0)%nat then Some (set_pc PSleep s) else None
    | WIntr => Some (set_pc (PBlock false false) s)
    | WReady async _ => if negb async || (0 <? s_queue s)%nat then Some (set_pc (PBlock true async) s) else None
    | WTimeout _ => Some (set_pc (PBlock false false) s)
    end.

(** The main thread *)
Definition next (c : conf) (order : list sig) (w : wait) (s : st) : option st :=
  match s_pc s with
  | PInit => Some (set_pc PTop s)
  | PTop => match s_term s with None => Some (say TIter (set_pc PTasks s)) | Some _ => Some (say TCleanup (set_pc PCleanup s)) end
  | PTasks => Some (set_pc PPoll s)
  | PPoll =>
      if c_epoll c then Some (set_pc PWait (set_mask no_mask s))
      else option_map (goto PUnblocked) (deliver_all c order (set_mask no_mask s))
  | PUnblocked => Some (set_pc PWait s)
  | PWait => wait_step c order w s
  | PSleep => match w with WReady _ _ | WTimeout _ => wait_step c order w (set_pc PWait s) | _ => None end
  | PBlock ready async => Some (set_pc (if ready then PFds async else PSig1) (set_mask init_mask s))
  | PFds async => Some (set_pc PSig1 (if async then set_queue (pred (s_queue s)) s else s))
  | PSig1 => Some (if s_reload s then say TReload (set_pc PReload (set_reload false s)) else set_pc PSig2 s)
  | PReload => Some (set_pc PSig2 s)
  | PSig2 => Some (if s_reset s then say TReset (set_pc PReset (set_reset false s)) else set_pc PSig3 s)
  | PReset => Some (set_pc PSig3 s)
  | PSig3 => Some (if s_child s then set_pc (PReap 0) (set_child false s) else set_pc PTop s)
  | PReap i =>
      match nth_error (s_pids s) i with
      | None => Some (set_pc PTop s)
      | Some pid =>
          match find_kid pid (s_kids s) with
          | None => Some (say TWaitError (set_pids (delete i (s_pids s)) s))
          | Some k =>
              if k_ended k
              then Some (say (TReaped pid) (set_kids (drop_kid pid (s_kids s)) (set_pids (delete i (s_pids s)) s)))
              else Some (set_pc (PReap (S i)) s)
          end
      end
  | PCleanup => Some (set_pc PTerm1 s)
  | PTerm1 =>
      match s_term s with
      | None => None
      | Some g => Some (set_pc PTerm2 (set_disp (fun h => if sig_eqb h g then Dfl else s_disp s h) s))
      end
  | PTerm2 => option_map (goto PTerm3) (deliver_all c order (set_mask no_mask s))
  | PTerm3 =>
      match s_term s with
      | None => None
      | Some g => Some (goto (PExit 255) (deliver c g s))
      end
  | PDead _ | PExit _ => None
  end.

Definition step (c : conf) (s : st) (e : ev) : option st :=
  if over s then None
  else
    match e with
    | EArrive g => Some (generate c g (say (TArrive g) s))
    | EEnd pid =>
        match find_kid pid (s_kids s) with
        | Some k => if k_ended k then None else Some (generate c SIGCHLD (say (TEnded pid (k_async k)) (set_kids (end_kid pid (s_kids s)) s)))
        | None => None
        end
    | EForkSync pid => if known pid s then None else Some (set_kids (mk_kid pid false false :: s_kids s) s)
    | EWaitSync pid =>
        match find_kid pid (s_kids s) with
        | Some (mk_kid _ false true) => Some (set_kids (drop_kid pid (s_kids s)) s)
        | _ => None
        end
    | ENotify => Some (enqueue c (match s_pc s with PSleep => set_pc PWait s | _ => s end))
    | EFork pid =>
        match s_forked s with
        | None => if known pid s || negb (runs_commands (s_pc s)) then None
                  else Some (say (TForked pid) (set_forked (Some pid) (set_kids (mk_kid pid true false :: s_kids s) s)))
        | Some _ => None
        end
    | EAdd => match s_forked s with Some pid => Some (set_forked None (set_pids (s_pids s ++ [pid]) s)) | None => None end
    | ENext order w => match s_forked s with None => next c order w s | Some _ => None end
    end.

Definition start : st := mk_st PInit init_mask init_disp [] false false false None 0 [] None [] [].
Inductive run (c : conf) : st -> Prop :=
| run_start : run c start
| run_step : forall s e s', run c s -> step c s e = Some s' -> run c s'.

(** A command after fork and exec (shell.c L114-124): nothing is blocked or pending; exec resets handlers only *)
Definition command_mask : sig -> bool := no_mask.
Definition command_disp (g : sig) : disp := match init_disp g with Handler => Dfl | d => d end.
