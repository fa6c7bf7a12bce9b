(** The timer queue specified as a map from tasks to times *)
From Verif Require Import Base BufferModel QueueModel.

(** Per allocated task: whether it is scheduled, and the time it is or was last scheduled for *)
Definition tasks : Type := N -> option (bool * Z).
Definition upd (z : tasks) (i : N) (x : option (bool * Z)) : tasks := fun j => if N.eq_dec j i then x else z j.
Definition no_tasks : tasks := fun _ => None.

Definition spec_op (o : task_op) (z : tasks) : res tasks :=
  match o with
  | ONew i => match z i with None => Ok (upd z i (Some (false, 0%Z))) | Some _ => UB end
  | OSchedule i t =>
      match z i with None => UB | Some (true, _) => Bug | Some (false, _) => Ok (upd z i (Some (true, t))) end
  | OAgain i d =>
      match z i with None => UB | Some (true, _) => Bug | Some (false, v) => Ok (upd z i (Some (true, v + d)%Z)) end
  | OUnschedule i => match z i with None => UB | Some (_, v) => Ok (upd z i (Some (false, v))) end
  | OEarlier i t =>
      match z i with
      | None => UB
      | Some (b, v) =>
          if (t =? TIMEOUT_INV)%Z then Ok (upd z i (Some (false, v)))
          else if (t <? (if b then v else TIMEOUT_INV))%Z then Ok (upd z i (Some (true, t)))
          else Ok z
      end
  | OFree i => match z i with None => UB | Some _ => Ok (upd z i None) end
  end.
Fixpoint spec_ops (l : list task_op) (z : tasks) : res tasks :=
  match l with
  | [] => Ok z
  | o :: l => do z <- spec_op o z; spec_ops l z
  end.

(** Running the tasks that are due: always one with the least time *)
Definition due (now : Z) (z : tasks) (i : N) (t : Z) : Prop := z i = Some (true, t) /\ (t <= now)%Z.
Definition least (z : tasks) (t : Z) : Prop := forall j u, z j = Some (true, u) -> (t <= u)%Z.
Inductive spec_run (now : Z) (handler : nat -> N -> list task_op) : nat -> tasks -> list (N * Z) -> tasks -> Prop :=
| spec_run_none : forall n z, spec_run now handler n z [] z
| spec_run_task : forall n z i t z1 log z', due now z i t -> least z t ->
    spec_ops (handler n i) (upd z i (Some (false, t))) = Ok z1 -> spec_run now handler (S n) z1 log z' ->
    spec_run now handler n z ((i, t) :: log) z'.
(** ... until none is due, or until the operations of a handler fail; if [fuel] tasks do not suffice, one is still due *)
Definition spec_handle (fuel : nat) (now : Z) (handler : nat -> N -> list task_op) (n : nat) (z : tasks) (r : res (option (list (N * Z) * tasks))) : Prop :=
  match r with
  | Ok (Some (log, z')) => spec_run now handler n z log z' /\ forall i t, ~ due now z' i t
  | Ok None => exists log z' i t, spec_run now handler n z log z' /\ length log = fuel /\ due now z' i t
  | e => exists log z' i t, spec_run now handler n z log z' /\ due now z' i t /\ least z' t /\
           match e, spec_ops (handler (n + length log) i) (upd z' i (Some (false, t))) with Bug, Bug => True | UB, UB => True | _, _ => False end
  end.

(** Handlers that schedule tasks only for later than now, and handlers that may also run again after a while *)
Definition future (now : Z) (o : task_op) : Prop :=
  match o with OSchedule _ t => (now < t)%Z | OEarlier _ t => (now < t)%Z | OAgain _ _ => False | _ => True end.
Definition future_only (now : Z) (handler : nat -> N -> list task_op) : Prop := forall n i, Forall (future now) (handler n i).
Definition progressing (now : Z) (handler : nat -> N -> list task_op) : Prop :=
  forall n i, Forall (future now) (handler n i) \/ exists d, (0 < d)%Z /\ handler n i = [OAgain i d].
Definition op_task (o : task_op) : N := match o with ONew i => i | OSchedule i _ => i | OAgain i _ => i | OUnschedule i => i | OEarlier i _ => i | OFree i => i end.

(** What can be seen of the queue *)
Definition observed (h : heap) (z : tasks) : Prop :=
  (forall i b v, z i = Some (b, v) -> task_scheduled h i = Ok b /\ task_timeout h i = Ok (if b then v else TIMEOUT_INV)) /\
  (forall i, z i = None -> getc h i = None) /\
  ((exists i t, z i = Some (true, t) /\ least z t /\ task_queue_timeout h = Ok t) \/
   ((forall i t, z i <> Some (true, t)) /\ task_queue_timeout h = Ok TIMEOUT_INV)).

(** No dangling links: every pointer leads to an allocated entry that points back, every back link leads to the
    place that points to the entry, and an entry that is not scheduled has no links *)
Definition points_back (h : heap) (l : loc) (p : option N) : Prop :=
  match p with None => True | Some i => exists c, getc h i = Some c /\ c_pprev c = Some l end.
Definition links_ok (h : heap) : Prop :=
  points_back h LRoot (h_root h) /\
  forall i c, getc h i = Some c ->
    points_back h (LNext i) (c_next c) /\ points_back h (LChildren i) (c_children c) /\
    match c_pprev c with Some l => load h l = Ok (Some i) | None => c_next c = None /\ c_children c = None end.
