(** Going to the background: the processes of [daemonize] (fastd.c L317-361) and [init] (fastd.c L461-541) after it, and the pipe
    between them.  The processes run interleaved; each event is the next call of one of them with its result. *)
From Verif Require Import Base.
Local Open Scope N_scope.

(** What the daemon does in [init_config] after [daemonize] and in [init], in order.  Only what concerns the pipe is modelled of each;
    every one of them can end the process. *)
Inductive job : Set :=
| JChdir | JCheck (* fastd_config_check *) | JOffload | JThreads | JCaps | JPoll | JSockets | JStatus | JAsync | JBind
| JPreUp (* the on-pre-up command is started *) | JIface | JGroups | JPid | JHashtable | JNotify
| JTell (* the status is written, L511-513 *) | JTellClose (* L514-515 *)
| JCapsEarly | JOnUp (* the on-up command is started *) | JPeers | JBuffers | JCapsLate | JLoad (* fastd_config_load_peer_dirs *).
Definition jobs : list job :=
  [JChdir; JCheck; JOffload; JThreads; JCaps; JPoll; JSockets; JStatus; JAsync; JBind; JPreUp; JIface; JGroups; JPid; JHashtable; JNotify;
   JTell; JTellClose; JCapsEarly; JOnUp; JPeers; JBuffers; JCapsLate; JLoad].

(** The next call of the parent.  PGone: exited with a status, or killed *)
Inductive parent : Set := PPipe | PFork | PClose | PWait | PRead | PGone (status : option N).
(** The first child.  CZombie: it has ended, CReaped: and was waited for *)
Inductive child : Set := CNone | CClose | CSetsid | CFork | CLeave | CZombie | CReaped.
(** The second child, which is the daemon *)
Inductive daemon : Set := DNone | DInit (todo : list job) | DUp | DGone.
(** A process started for a shell command, [shell_command_do_exec], shell.c L95-121: HNew before [fastd_close_all_fds], HRun the command
    and whatever it starts, as long as any of them lives *)
Inductive helper : Set := HNew | HRun | HGone.

(** The ends of the pipe that a process has open *)
Record ends := Ends { e_r : bool; e_w : bool }.
Definition none : ends := Ends false false.
Inductive pid : Set := Login (* the session of the parent *) | Child | Daemon.

Record state := State {
  s_parent : parent; s_pends : ends;
  s_child : child; s_cends : ends; s_csession : pid;
  s_daemon : daemon; s_dends : ends; s_dsession : pid;
  s_helpers : list (helper * ends);
  s_pipe : list N; (* what was written and not read yet *)
  s_done : list job; (* what the daemon has done, the last one first *)
  s_failed : bool; (* a call of the parent failed *)
  s_cfailed : bool }. (* fork failed in the first child *)

(** The numbers of the descriptors that pipe() returns, the limit in [fastd_close_all_fds] (fastd.c L206-221; as getrlimit never returns
    a positive number it is always that of sysconf), and whether the commands are configured *)
Record setup := Setup { rfd : N; wfd : N; maxfd : N; pre_up : bool; on_up : bool }.

Inductive event : Type :=
| EParent (ok : bool) | EChild (ok : bool) | EDaemon (ok : bool)
| ELog (text : list N) (* the daemon logs to the standard error *)
| EChildLog (text : list N)
| EHelper (i : nat) (* closes its descriptors and runs the command *)
| EOutput (i : nat) (text : list N) (* the command writes to a descriptor it inherited *)
| EEnd (i : nat) (* it ends *)
| EKillParent | EKillChild | EKillDaemon.

Section Daemon.
Variable C : setup.

Definition start : state := State PPipe none CNone none Login DNone none Login [] [] [] false false.

Definition set_parent p e (s : state) : state := State p e (s_child s) (s_cends s) (s_csession s) (s_daemon s) (s_dends s) (s_dsession s) (s_helpers s) (s_pipe s) (s_done s) (s_failed s) (s_cfailed s).
Definition set_child c e d (s : state) : state := State (s_parent s) (s_pends s) c e d (s_daemon s) (s_dends s) (s_dsession s) (s_helpers s) (s_pipe s) (s_done s) (s_failed s) (s_cfailed s).
Definition set_daemon d e n (s : state) : state := State (s_parent s) (s_pends s) (s_child s) (s_cends s) (s_csession s) d e n (s_helpers s) (s_pipe s) (s_done s) (s_failed s) (s_cfailed s).
Definition set_helpers h (s : state) : state := State (s_parent s) (s_pends s) (s_child s) (s_cends s) (s_csession s) (s_daemon s) (s_dends s) (s_dsession s) h (s_pipe s) (s_done s) (s_failed s) (s_cfailed s).
Definition set_pipe p (s : state) : state := State (s_parent s) (s_pends s) (s_child s) (s_cends s) (s_csession s) (s_daemon s) (s_dends s) (s_dsession s) (s_helpers s) p (s_done s) (s_failed s) (s_cfailed s).
Definition did j (s : state) : state := State (s_parent s) (s_pends s) (s_child s) (s_cends s) (s_csession s) (s_daemon s) (s_dends s) (s_dsession s) (s_helpers s) (s_pipe s) (j :: s_done s) (s_failed s) (s_cfailed s).
Definition set_failed (s : state) : state := State (s_parent s) (s_pends s) (s_child s) (s_cends s) (s_csession s) (s_daemon s) (s_dends s) (s_dsession s) (s_helpers s) (s_pipe s) (s_done s) true (s_cfailed s).
Definition set_cfailed (s : state) : state := State (s_parent s) (s_pends s) (s_child s) (s_cends s) (s_csession s) (s_daemon s) (s_dends s) (s_dsession s) (s_helpers s) (s_pipe s) (s_done s) (s_failed s) true.

Definition all_ends (s : state) : list ends := s_pends s :: s_cends s :: s_dends s :: map snd (s_helpers s).
Definition writers (s : state) : bool := existsb e_w (all_ends s).
Definition readers (s : state) : bool := existsb e_r (all_ends s).

(** exit_errno in the parent *)
Definition parent_error (s : state) : state := set_failed (set_parent (PGone (Some 1)) none s).

(** The parent, fastd.c L318-341 *)
Definition parent_step (ok : bool) (s : state) : option state :=
  match s_parent s with
  | PPipe => Some (if ok then set_parent PFork (Ends true true) s else parent_error s)
  | PFork => Some (if ok then set_parent PClose (s_pends s) (set_child CClose (s_pends s) Login s) else parent_error s)
  | PClose => Some (if ok then set_parent PWait (Ends (e_r (s_pends s)) false) s else parent_error s)
  | PWait =>
      if ok then
        match s_child s with
        | CZombie => Some (set_parent PRead (s_pends s) (set_child CReaped (s_cends s) (s_csession s) s))
        | _ => None (* blocked *)
        end
      else Some (parent_error s)
  | PRead =>
      if ok then
        match s_pipe s with
        | status :: r => Some (set_parent (PGone (Some status)) none (set_pipe r s))
        | [] => if writers s then None (* blocked *) else Some (set_parent (PGone (Some 1)) none s) (* the initial value of status *)
        end
      else Some (parent_error s)
  | PGone _ => None
  end.

(** The first child, fastd.c L342-356; errors of close and setsid are only logged *)
Definition child_step (ok : bool) (s : state) : option state :=
  match s_child s with
  | CClose => Some (set_child CSetsid (if ok then Ends false (e_w (s_cends s)) else s_cends s) (s_csession s) s)
  | CSetsid => Some (set_child CFork (s_cends s) (if ok then Child else s_csession s) s)
  | CFork =>
      Some (if ok then set_daemon (DInit jobs) (s_cends s) (s_csession s) (set_child CLeave (s_cends s) (s_csession s) s)
            else set_cfailed (set_child CZombie none (s_csession s) s))
  | CLeave => if ok then Some (set_child CZombie none (s_csession s) s) else None
  | CNone | CZombie | CReaped => None
  end.

Definition spawn (s : state) : state := set_helpers (s_helpers s ++ [(HNew, s_dends s)]) s.

(** The daemon.  A write to a pipe that nobody can read fails; SIGPIPE is ignored. *)
Definition daemon_step (ok : bool) (s : state) : option state :=
  match s_daemon s with
  | DInit (j :: r) =>
      if ok then
        let next := match r with [] => DUp | _ => DInit r end in
        match j with
        | JTell => if readers s then Some (did j (set_pipe (s_pipe s ++ [0]) (set_daemon next (s_dends s) (s_dsession s) s))) else None
        | JTellClose => Some (did j (set_daemon next (Ends (e_r (s_dends s)) false) (s_dsession s) s))
        | JPreUp => let s := if pre_up C then spawn s else s in Some (did j (set_daemon next (s_dends s) (s_dsession s) s))
        | JOnUp => let s := if on_up C then spawn s else s in Some (did j (set_daemon next (s_dends s) (s_dsession s) s))
        | _ => Some (did j (set_daemon next (s_dends s) (s_dsession s) s))
        end
      else Some (set_daemon DGone none (s_dsession s) s)
  | _ => None
  end.

(** A message on the standard error, log.c L263-275: written to the pipe if this is its descriptor *)
Definition stderr (e : ends) (text : list N) (s : state) : state :=
  if ((wfd C =? 2) && e_w e && readers s)%bool then set_pipe (s_pipe s ++ text) s else s.

(** [fastd_close_all_fds], fastd.c L206-221, in a child *)
Definition closed (fd : N) : bool := ((3 <=? fd) && (fd <? maxfd C))%bool.
Definition close_all (e : ends) : ends := Ends (e_r e && negb (closed (rfd C))) (e_w e && negb (closed (wfd C))).

Fixpoint update {A} (l : list A) (i : nat) (x : A) : list A :=
  match l, i with [], _ => [] | _ :: r, O => x :: r | y :: r, S i => y :: update r i x end.

Definition step (e : event) (s : state) : option state :=
  match e with
  | EParent ok => parent_step ok s
  | EChild ok => child_step ok s
  | EDaemon ok => daemon_step ok s
  | ELog text => match s_daemon s with DInit _ | DUp => Some (stderr (s_dends s) text s) | _ => None end
  | EChildLog text => match s_child s with CSetsid | CFork | CLeave => Some (stderr (s_cends s) text s) | _ => None end
  | EHelper i => match nth_error (s_helpers s) i with Some (HNew, e) => Some (set_helpers (update (s_helpers s) i (HRun, close_all e)) s) | _ => None end
  | EOutput i text =>
      match nth_error (s_helpers s) i with
      | Some (HRun, e) => if (e_w e && readers s)%bool then Some (set_pipe (s_pipe s ++ text) s) else None
      | _ => None
      end
  | EEnd i =>
      match nth_error (s_helpers s) i with
      | Some (HNew, _) | Some (HRun, _) => Some (set_helpers (update (s_helpers s) i (HGone, none)) s)
      | _ => None
      end
  | EKillParent => match s_parent s with PGone _ => None | _ => Some (set_parent (PGone None) none s) end
  | EKillChild => match s_child s with CClose | CSetsid | CFork | CLeave => Some (set_child CZombie none (s_csession s) s) | _ => None end
  | EKillDaemon => match s_daemon s with DInit _ | DUp => Some (set_daemon DGone none (s_dsession s) s) | _ => None end
  end.

Fixpoint run (l : list event) (s : state) : option state :=
  match l with [] => Some s | e :: r => match step e s with Some s => run r s | None => None end end.
End Daemon.
