(** C39: the timer queue *)
From Coq Require Import Sorted.
From Verif Require Import Base BufferModel QueueModel QueueSpec QueueProofs.

(** After every sequence of operations the queue holds exactly the scheduled tasks with their times, the time reported
    for the next task is the least one, and all links are consistent; the queue fails exactly if a task is scheduled
    twice, or if a task that does not exist is used *)
Theorem C39_operations : forall right l, match spec_ops l no_tasks with
  | Ok z => exists h, task_ops_run right l heap_init = Ok h /\ observed h z /\ links_ok h
  | Bug => task_ops_run right l heap_init = Bug
  | Fatal => False
  | UB => task_ops_run right l heap_init = UB
  end.
Proof. exact ops_exact. Qed.

(** Running the queue executes one of the earliest tasks after the other, whatever the handlers do with the queue,
    until no task is due; afterwards the queue is as specified *)
Theorem C39_run : forall right l h z fuel now handler, task_ops_run right l heap_init = Ok h -> spec_ops l no_tasks = Ok z ->
  match task_handle right fuel now handler 0 h with
  | Ok (Some (h', log)) => exists z', spec_handle fuel now handler 0 z (Ok (Some (log, z'))) /\ observed h' z' /\ links_ok h'
  | Ok None => spec_handle fuel now handler 0 z (Ok None)
  | Bug => spec_handle fuel now handler 0 z Bug
  | Fatal => False
  | UB => spec_handle fuel now handler 0 z UB
  end.
Proof. exact run_exact. Qed.

(** After a run the queue is in a state reached by operations: all the theorems apply to any sequence of operations and runs *)
Theorem C39_runs_compose : forall right fuel now handler n h h' log,
  task_handle right fuel now handler n h = Ok (Some (h', log)) -> exists l, task_ops_run right l h = Ok h'.
Proof. exact run_is_ops. Qed.

(** If handlers schedule tasks for later only, every task is run at most once, in the order of the times, only if it was
    due, and every task that was due and is not touched by a handler is run *)
Theorem C39_once_in_order : forall right l h z fuel now handler h' log,
  task_ops_run right l heap_init = Ok h -> spec_ops l no_tasks = Ok z -> future_only now handler -> task_handle right fuel now handler 0 h = Ok (Some (h', log)) ->
  NoDup (map fst log) /\ StronglySorted (fun x y => (snd x <= snd y)%Z) log /\ (forall i t, In (i, t) log -> due now z i t) /\
  (forall i t, due now z i t -> (forall m j, Forall (fun o => op_task o <> i) (handler m j)) -> In (i, t) log).
Proof. exact run_once. Qed.

(** If a handler either schedules tasks for later or its own task again after a positive delay (maintenance), the run
    ends, and tasks are run in the order of the times *)
Theorem C39_terminates : forall right l h now handler, task_ops_run right l heap_init = Ok h -> progressing now handler ->
  exists fuel0, forall fuel, fuel0 <= fuel -> task_handle right fuel now handler 0 h <> Ok None.
Proof. exact run_terminates. Qed.
Theorem C39_ordered : forall right l h fuel now handler h' log, task_ops_run right l heap_init = Ok h -> progressing now handler ->
  task_handle right fuel now handler 0 h = Ok (Some (h', log)) -> StronglySorted (fun x y => (snd x <= snd y)%Z) log.
Proof. exact run_ordered. Qed.

Print Assumptions C39_operations.
Print Assumptions C39_run.
Print Assumptions C39_runs_compose.
Print Assumptions C39_once_in_order.
Print Assumptions C39_terminates.
Print Assumptions C39_ordered.

(** Six tasks, one unscheduled from the middle of the heap, one brought forward, one freed *)
Definition ex_ops : list task_op :=
  [ONew 1; ONew 2; ONew 3; ONew 4; ONew 5; ONew 6; OSchedule 1 50; OSchedule 2 30; OSchedule 3 70; OSchedule 4 20; OSchedule 5 60; OSchedule 6 40;
   OUnschedule 2; OEarlier 3 10; OEarlier 5 65; OFree 6; OUnschedule 2]%N%Z.
Example C39_operations_ex : forall right, exists h, task_ops_run right ex_ops heap_init = Ok h /\ task_queue_timeout h = Ok 10%Z /\ task_timeout h 5 = Ok 60%Z /\ task_scheduled h 2 = Ok false.
Proof. intros right. destruct right; eexists; (split; [vm_compute; reflexivity|]); split; [|split| |split]; vm_compute; reflexivity. Qed.
(** Task 3 unschedules 1 and schedules 2 later; task 4 is the maintenance task, which catches up *)
Definition ex_handler (n : nat) (i : N) : list task_op :=
  if N.eqb i 3 then [OUnschedule 1; OSchedule 2 101] else if N.eqb i 4 then [OAgain 4 35] else [].
Example C39_run_ex : forall right, exists h h', task_ops_run right ex_ops heap_init = Ok h /\
  task_handle right 20 100 ex_handler 0 h = Ok (Some (h', [(3%N, 10%Z); (4%N, 20%Z); (4%N, 55%Z); (5%N, 60%Z); (4%N, 90%Z)])) /\ task_queue_timeout h' = Ok 101%Z.
Proof. intros right. destruct right; eexists; eexists; (split; [vm_compute; reflexivity|]); split; vm_compute; reflexivity. Qed.
Example C39_terminates_ex : progressing 100 ex_handler /\ future_only 100 (fun n i => if N.eqb i 4 then [] else ex_handler n i).
Proof.
  split; intros n i; unfold ex_handler; cbn beta iota.
  - destruct (N.eqb_spec i 3); [left; repeat constructor|]. destruct (N.eqb_spec i 4) as [->|]; [right; exists 35%Z; split; [lia | reflexivity] | left; constructor].
  - destruct (N.eqb_spec i 4); [constructor|]. destruct (N.eqb i 3); repeat constructor.
Qed.
(** Scheduling twice, using a freed task *)
Example C39_failures_ex : spec_ops [ONew 1; OSchedule 1 5; OSchedule 1 6] no_tasks = Bug /\ spec_ops [ONew 1; OFree 1; OUnschedule 1] no_tasks = UB.
Proof. split; vm_compute; reflexivity. Qed.
