(** What is claimed about the limit of verification commands *)
From Verif Require Import Base VerifyModel.

(** waitpid never fails in a history *)
Definition no_wait_error (l : list vevent) : Prop := forall id, ~ In (EWait id None) l.

(** Steps of verifier threads whose commands end; no new calls *)
Definition thread_event (e : vevent) : Prop :=
  match e with ECall | ECreated _ | EExit _ => False | EWait _ None => False | _ => True end.

(** How often the thread with a number incremented the semaphore *)
Definition is_post (id : nat) (e : vevent) : bool := match e with EPost i => Nat.eqb i id | _ => false end.
Definition posts (id : nat) (l : list vevent) : nat := length (filter (is_post id) l).

(** A thread was created for the call with the number *)
Definition created (id : nat) (l : list vevent) (s0 : vstate) : Prop :=
  exists l1 l2 s, l = l1 ++ ECreated true :: l2 /\ vrun l1 s0 = Some s /\ v_main s = MCreate id.

(** The call with the number was refused because of the limit *)
Definition refused (id : nat) (l : list vevent) : Prop :=
  exists l1 l2 s, l = l1 ++ ECall :: l2 /\ vrun l1 vinit = Some s /\ v_sem s = 0 /\ v_main s = MIdle /\ v_next s = id.
