(** What a polling loop has to do, in terms of what happened: objects opened
    and closed, descriptors reported by the kernel, reports handed to objects
    (in order, the earliest first). *)

From Coq Require Import ZArith List Bool.
From Verif Require Import PollModel.
Import ListNotations.

(** After [t], the object number [id] is open, with the descriptor [fd]. *)
Definition is_open (t : list ev) (id : nat) (fd : Z) : Prop :=
  In (EOpen id fd) t /\ ~ In (EClose id) t.

Definition is_poll (e : ev) : bool := match e with EPoll _ => true | _ => false end.
Definition is_change (e : ev) : bool :=
  match e with EOpen _ _ | EClose _ => true | _ => false end.

(** A report is handed only to an object that was open when the kernel was
    asked, that is still open now, and whose descriptor the kernel reported
    with these flags. *)
Definition dispatch_ok (t : list ev) : Prop :=
  forall t1 id i e t2,
    t = t1 ++ EDisp id i e :: t2 ->
    exists u1 rep u2 fd,
      t1 = u1 ++ EPoll rep :: u2 /\ existsb is_poll u2 = false /\
      is_open u1 id fd /\ is_open t1 id fd /\ In (fd, i, e) rep.

(** The kernel is asked about exactly the descriptors of the objects open at
    that time, about each once. *)
Definition poll_ok (t : list ev) : Prop :=
  forall t1 rep t2,
    t = t1 ++ EPoll rep :: t2 ->
    NoDup (map (fun r => fst (fst r)) rep) /\
    forall fd, In fd (map (fun r => fst (fst r)) rep) <-> exists id, is_open t1 id fd.

Definition ready_disp (e : ev) : list (nat * bool * bool) :=
  match e with
  | EDisp id i e => if i || e then [(id, i, e)] else []
  | _ => []
  end.

(** If nothing is opened or closed between the report of the kernel and the
    end of the round, then everything reported is handed to its object in this
    round, once and in the order of the report. *)
Definition complete (t : list ev) : Prop :=
  forall t1 rep u t2,
    t = t1 ++ EPoll rep :: u ++ EEnd :: t2 ->
    existsb is_poll u = false -> existsb is_change u = false ->
    Forall2 (fun d r => is_open t1 (fst (fst d)) (fst (fst r)) /\
                        snd (fst d) = snd (fst r) /\ snd d = snd r)
            (flat_map ready_disp u)
            (filter nonzero rep).

(** The numbers tell the objects apart, and so do the descriptors of open
    objects. *)
Definition distinct (t : list ev) : Prop :=
  (forall id fd fd', In (EOpen id fd) t -> In (EOpen id fd') t -> fd = fd') /\
  (forall id id' fd, is_open t id fd -> is_open t id' fd -> id = id').

(** Handlers that close only the object they were called for *)
Definition careful (handler : pst -> nat -> list op) : Prop :=
  forall s p q, In (OpClose q) (handler s p) -> q = p.

(** An object without input is not handled: nothing is opened or closed
    between its report and the next one, or the end of the round. *)
Definition idle_ok (t : list ev) : Prop :=
  forall t1 id e x t2, t = t1 ++ EDisp id false e :: x :: t2 -> is_change x = false.

(** An object with input is handled: with handlers that close their object at
    once, this is what happens next. *)
Definition handled (t : list ev) : Prop :=
  forall t1 id e t2, t = t1 ++ EDisp id true e :: t2 -> exists t3, t2 = EClose id :: t3.
Definition closing (handler : pst -> nat -> list op) : Prop :=
  forall s p, exists l, handler s p = OpClose p :: l.
