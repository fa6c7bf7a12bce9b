(** C40, C52: on-verify commands *)
From Verif Require Import Base VerifyModel VerifySpec VerifyProofs.

(** C40: at most 32 commands run at a time.  waitpid does not fail: the threads wait for
    their own children, and all signals are blocked in them. *)
Theorem C40_limit_kept : forall l s, no_wait_error l -> vrun l vinit = Some s -> length (v_procs s) <= 32.
Proof. exact limit_kept. Qed.
Print Assumptions C40_limit_kept.

(** If waitpid could fail the limit could be exceeded, as the slot is returned while the
    command is running *)
Theorem C40_limit_wait_error_refuted : exists l s, vrun l vinit = Some s /\ length (v_procs s) = 33.
Proof. exact wait_error_overruns. Qed.
Print Assumptions C40_limit_wait_error_refuted.

(** Free slots, threads and the call in progress add up to 32 at all times; nothing is used
    after having been freed or freed twice; arguments belong to a thread or the call in progress *)
Theorem C40_slots_accounted : forall l s, vrun l vinit = Some s ->
  v_sem s + length (v_threads s) + (match v_main s with MIdle => 0 | MCreate _ => 1 end) = 32 /\ v_bad s = false /\
  (forall id, In id (v_args s) -> v_main s = MCreate id \/ In id (map fst (v_threads s))).
Proof. exact slots_accounted. Qed.
Print Assumptions C40_slots_accounted.

(** Each thread returns its slot once, when it ends *)
Theorem C40_slot_returned_once : forall l s id, vrun l vinit = Some s -> created id l vinit ->
  (posts id l = 0 /\ In id (map fst (v_threads s))) \/ (posts id l = 1 /\ ~ In id (map fst (v_threads s))).
Proof. exact posted_once. Qed.
Print Assumptions C40_slot_returned_once.

(** A call is refused only if 32 threads exist *)
Theorem C40_refused_only_full : forall l s s', vrun l vinit = Some s -> vstep ECall s = Some s' -> v_main s' = MIdle -> length (v_threads s) = 32.
Proof. exact refused_full. Qed.
Print Assumptions C40_refused_only_full.

(** Whatever happened, all slots are free after the threads that exist have ended *)
Theorem C40_recovers : forall l s, vrun l vinit = Some s -> v_main s = MIdle ->
  exists l' s', vrun l' s = Some s' /\ Forall thread_event l' /\ v_sem s' = 32 /\ v_main s' = MIdle.
Proof. exact recovers. Qed.
Print Assumptions C40_recovers.

(** No thread sends two results *)
Theorem C40_one_result : forall l s, vrun l vinit = Some s -> NoDup (map fst (v_results s)).
Proof. exact results_once. Qed.
Print Assumptions C40_one_result.

(** The result can get lost when sending fails *)
Theorem C40_result_sent_refuted : exists l s, vrun l vinit = Some s /\ created 0 l vinit /\ v_threads s = [] /\ v_main s = MIdle /\ v_results s = [].
Proof. exact result_lost. Qed.
Print Assumptions C40_result_sent_refuted.

(** 32 commands at once are possible, and a 33rd call is refused then *)
Example C40_hypotheses_met : exists s s', no_wait_error (start_all 32) /\ vrun (start_all 32) vinit = Some s /\ length (v_procs s) = 32 /\
  v_main s = MIdle /\ created 31 (start_all 32) vinit /\ vstep ECall s = Some s' /\ v_main s' = MIdle.
Proof.
  eexists. eexists. split; [intros id H; vm_compute in H; repeat destruct H as [H|H]; try discriminate; exact H|].
  split; [vm_compute; reflexivity|]. split; [reflexivity|]. split; [reflexivity|]. split; [|split; reflexivity].
  exists (start_all 31 ++ [ECall]), [EFork 31 true]. eexists. split; [vm_compute; reflexivity|]. split; [vm_compute; reflexivity | reflexivity].
Qed.

(** C52 is false: the environment of a call refused because of the limit is not freed
    (verify.c L97-100), so memory grows without bound although at most 32 threads exist *)
Theorem C52_environment_leak_refuted : forall n, exists l s, vrun l vinit = Some s /\ v_main s = MIdle /\
  length (v_threads s) <= 32 /\ length (v_envs s) = length (v_threads s) + n.
Proof. exact refused_leaks. Qed.
Print Assumptions C52_environment_leak_refuted.

(** Every other environment is freed by the end of its thread, whatever calls have been refused in between *)
Theorem C52_environment_freed : forall l s, vrun l vinit = Some s ->
  forall id, In id (v_envs s) -> refused id l \/ v_main s = MCreate id \/ In id (map fst (v_threads s)).
Proof. exact env_freed. Qed.
Print Assumptions C52_environment_freed.

Example C52_hypotheses_met :
  exists s, vrun [ECall; ECreated true; ECall; ECreated false; EFork 0 true] vinit = Some s /\ v_envs s = [0] /\ map fst (v_threads s) = [0].
Proof. eexists; repeat split; vm_compute; reflexivity. Qed.
