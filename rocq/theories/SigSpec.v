(** What is expected of signals, in terms of what happened. *)
From Verif Require Import Base SigModel.

Definition tev_eq_dec (a b : tev) : {a = b} + {a <> b}.
Proof. decide equality; try apply sig_eq_dec; try apply N.eq_dec; apply Bool.bool_dec. Defined.

(** What happened, in order *)
Definition history (s : st) : list tev := rev (s_trace s).

(** Signals that ask for something, and what it is; signals that ask the process to end *)
Inductive request : sig -> tev -> Prop :=
| rq_reload : request SIGHUP TReload
| rq_reset : request SIGUSR2 TReset.
Definition terminating (g : sig) : Prop := g = SIGTERM \/ g = SIGQUIT \/ g = SIGINT.

(** A signal sent and then let through is acted upon before the next iteration. *)
Definition served (h : list tev) : Prop :=
  forall g r a b d e, request g r -> h = a ++ TArrive g :: b ++ TOpen :: d ++ TIter :: e -> In r (b ++ d).
Definition reaped (h : list tev) : Prop :=
  forall pid a b d e, h = a ++ TEnded pid true :: b ++ TOpen :: d ++ TIter :: e -> In (TReaped pid) (b ++ d).
Definition stops (h : list tev) : Prop :=
  forall g a b d, terminating g -> h = a ++ TArrive g :: b ++ TOpen :: d -> ~ In TIter d.
(** Nothing is done unasked: up to any time there are at least as many signals as actions, and a wait only after the end. *)
Definition asked (h : list tev) : Prop :=
  (forall g r a b, request g r -> h = a ++ b -> (count_occ tev_eq_dec a r <= count_occ tev_eq_dec a (TArrive g))%nat) /\
  (forall a b, h = a ++ TCleanup :: b -> exists g, terminating g /\ In (TArrive g) a) /\
  (forall pid a b, h = a ++ TReaped pid :: b ->
     exists a1 a2 a3, a = a1 ++ TForked pid :: a2 ++ TEnded pid true :: a3 /\ ~ In (TReaped pid) (a2 ++ a3)).
(** Signals are let through in every iteration. *)
Definition opens (h : list tev) : Prop := forall a b d, h = a ++ TIter :: b ++ TIter :: d -> In TOpen b.

(** Something is left to do: a signal with a handler is pending, has been noted by the handler, or an asynchronous child that has
    ended still exists. *)
Definition outstanding (s : st) : Prop :=
  (exists g, In g (s_pending s)) \/ s_reload s = true \/ s_reset s = true \/ s_child s = true \/ s_term s <> None \/
  (exists k, In k (s_kids s) /\ k_async k = true /\ k_ended k = true).

(** Signals without effect *)
Definition ignored (g : sig) : Prop := g = SIGPIPE \/ g = SIGTTIN \/ g = SIGTTOU \/ g = SIGUSR1.
(** Signals the program does not handle *)
Definition unhandled (g : sig) : Prop := match g with SIGILL | SIGABRT | SIGFPE | SIGSEGV => True | SIGOTHER _ k => k = true | _ => False end.

(** Where a signal can interrupt the main thread: while it waits *)
Definition waiting (p : pc) : Prop := match p with PUnblocked | PWait | PSleep | PBlock _ _ | PTerm2 | PTerm3 => True | _ => False end.
(** Signals that are never blocked: they mean that the program has a bug *)
Definition fault (g : sig) : Prop := g = SIGILL \/ g = SIGABRT \/ g = SIGFPE \/ g = SIGSEGV.

(** Events in sequence *)
Fixpoint steps (c : conf) (s : st) (l : list ev) : option st :=
  match l with [] => Some s | e :: l => match step c s e with Some s' => steps c s' l | None => None end end.
