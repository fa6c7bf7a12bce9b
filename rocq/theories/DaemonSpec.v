(** What is expected when fastd goes to the background. *)
From Verif Require Import Base DaemonModel.
Local Open Scope N_scope.

Definition reachable (C : setup) (s : state) : Prop := exists l, run C l start = Some s.

(** The standard descriptors are open when the program starts, so that those of the pipe are others, below the limit *)
Definition ordinary (C : setup) : Prop := 3 <= rfd C < maxfd C /\ 3 <= wfd C < maxfd C.

(** The daemon has set up everything that is done before the status is written, and written it *)
Definition ready (s : state) : Prop :=
  exists later, rev (s_done s) = [JChdir; JCheck; JOffload; JThreads; JCaps; JPoll; JSockets; JStatus; JAsync; JBind; JPreUp; JIface; JGroups; JPid; JHashtable; JNotify; JTell] ++ later.

(** There is no daemon that could still become ready *)
Definition lost (s : state) : Prop := (s_daemon s = DGone \/ (s_daemon s = DNone /\ (s_child s = CZombie \/ s_child s = CReaped))) /\ ~ ready s.

(** Calls of the program's own processes (not of the commands), and those that succeed *)
Definition own (e : event) : bool := match e with EParent _ | EChild _ | EDaemon _ | EHelper _ => true | _ => false end.
Definition succeeds (e : event) : bool := match e with EParent ok | EChild ok | EDaemon ok => ok | EHelper _ => true | _ => false end.
