(** C49: polling never touches a closed descriptor's object — with poll and
    select; with epoll it does. *)

From Coq Require Import ZArith List Bool Lia.
From Verif Require Import BufferModel PollModel PollSpec PollProofs PollProofs2 PollProofs3 PollProofs4.
Import ListNotations.
Local Open Scope Z_scope.

(** With poll and with select, whatever the handlers open and close and
    whatever the kernel reports: no freed object is accessed; a report is
    handed only to an object that was open when the kernel was asked and still
    is, with the flags reported for its descriptor; the kernel is asked about
    exactly the open objects each time; and when no handler opens or closes
    anything, all that was reported is handed on in this round. *)
Theorem C49_poll : forall handler r,
  poll_run handler r ->
  match r with
  | Ok s => distinct (rev (p_trace s)) /\ dispatch_ok (rev (p_trace s)) /\
            poll_ok (rev (p_trace s)) /\ complete (rev (p_trace s))
  | UB => False
  | _ => True
  end.
Proof. exact poll_run_spec. Qed.
Print Assumptions C49_poll.

(** The handlers run exactly for the objects with input: without input nothing
    is opened or closed for a report, and handlers that close their object do
    so whenever there is input. *)
Theorem C49_handlers : forall handler s, poll_run handler (Ok s) \/ epoll_run handler (Ok s) ->
  idle_ok (rev (p_trace s)) /\ (closing handler -> handled (rev (p_trace s))).
Proof.
  intros handler s [R|R]; split.
  - exact (poll_idle handler s R).
  - intros C. exact (poll_handled handler s C R).
  - exact (epoll_idle handler s R).
  - intros C. exact (epoll_handled handler s C R).
Qed.
Print Assumptions C49_handlers.

(** A handler for the object at address 1 that closes the one at address 2,
    as the receive handler does when a packet on one socket makes the program
    reset a peer with a socket of its own, and opens another one in the same
    place. *)
Definition closes2 (s : pst) (p : nat) : list op :=
  if Nat.eqb p 1 then [OpClose 2] else [].
Definition replaces2 (s : pst) (p : nat) : list op :=
  if Nat.eqb p 1 then [OpClose 2; OpOpen 2 PIface 6] else [].

Definition three : list op := [OpOpen 1 PSocket 5; OpOpen 2 PSocket 6; OpOpen 3 PIface 7].

(** Three ready descriptors; the first handler closes the second object: the
    round ends with the first, the next one asks again about what is left. *)
Example C49_poll_ex : exists s1 s2 s3,
  exec_ops poll_register poll_close start three = Ok s1 /\
  poll_handle closes2 false (AReady (fun _ => (true, false))) s1 = Ok s2 /\
  poll_handle closes2 true (AReady (fun fd => (fd =? 7, fd =? 5))) s2 = Ok s3 /\
  poll_run closes2 (Ok s3) /\
  rev (p_trace s3) =
    [EOpen 0 5; EOpen 1 6; EOpen 2 7;
     EPoll [(5, true, false); (6, true, false); (7, true, false)];
     EDisp 0 true false; EClose 1; EEnd;
     EPoll [(5, false, true); (7, true, false)];
     EDisp 0 false true; EDisp 2 true false; EEnd].
Proof.
  eexists. eexists. eexists.
  split; [vm_compute; reflexivity|]. split; [vm_compute; reflexivity|].
  split; [vm_compute; reflexivity|]. split; [|vm_compute; reflexivity].
  eapply pr_step with (r := Ok _).
  2:{ match goal with |- poll_step _ _ (Ok ?v) =>
        replace (Ok v) with (poll_handle closes2 true (AReady (fun fd => (fd =? 7, fd =? 5)))
          (match poll_handle closes2 false (AReady (fun _ => (true, false)))
                  (match exec_ops poll_register poll_close start three with Ok s => s | _ => start end)
           with Ok s => s | _ => start end)) by (vm_compute; reflexivity) end.
      apply ps_round. }
  eapply pr_step with (r := Ok _).
  2:{ match goal with |- poll_step _ _ (Ok ?v) =>
        replace (Ok v) with (poll_handle closes2 false (AReady (fun _ => (true, false)))
                  (match exec_ops poll_register poll_close start three with Ok s => s | _ => start end))
          by (vm_compute; reflexivity) end.
      apply ps_round. }
  eapply pr_step with (r := Ok _); [apply pr_start|].
  match goal with |- poll_step _ _ (Ok ?v) =>
    replace (Ok v) with (exec_ops poll_register poll_close start three) by (vm_compute; reflexivity) end.
  apply ps_other.
Qed.

(** With epoll the rest of the events array is still handed out: an object
    closed by the handler of an earlier event is accessed after it was
    freed. *)
Theorem C49_epoll_refuted :
  exists handler s l, epoll_run handler (Ok s) /\ epoll_can s l /\
    epoll_handle handler (EAReady l) s = UB.
Proof.
  exists closes2.
  destruct (exec_ops epoll_register epoll_close start three) as [s| | |] eqn:E;
    try (vm_compute in E; discriminate).
  exists s, [mkE 1 true false; mkE 2 true false]. split; [|split].
  - apply er_step with (s := start); [apply er_start|]. rewrite <- E. apply es_other.
  - vm_compute in E. injection E as <-. split; [cbn; lia|]. split.
    + repeat constructor; cbn; intuition discriminate.
    + intros e [<-|[<-|[]]]; vm_compute; auto.
  - vm_compute in E. injection E as <-. vm_compute. reflexivity.
Qed.
Print Assumptions C49_epoll_refuted.

(** If another object has been put in the same place meanwhile, it gets the
    event of the one that was closed. *)
Theorem C49_epoll_misdirected_refuted :
  exists handler s, epoll_run handler (Ok s) /\ ~ dispatch_ok (rev (p_trace s)).
Proof.
  exists replaces2.
  destruct (exec_ops epoll_register epoll_close start three) as [s| | |] eqn:E;
    try (vm_compute in E; discriminate).
  set (l := [mkE 1 true false; mkE 2 true false]).
  destruct (epoll_handle replaces2 (EAReady l) s) as [s'| | |] eqn:E';
    try (vm_compute in E; injection E as <-; vm_compute in E'; discriminate).
  exists s'. split.
  - apply er_step with (s := s).
    + apply er_step with (s := start); [apply er_start|]. rewrite <- E. apply es_other.
    + rewrite <- E'. apply es_round. vm_compute in E. injection E as <-.
      split; [cbn; lia|]. split.
      * repeat constructor; cbn; intuition discriminate.
      * intros e [<-|[<-|[]]]; vm_compute; auto.
  - vm_compute in E. injection E as <-. vm_compute in E'. injection E' as <-. intros D.
    destruct (D [EOpen 0 5; EOpen 1 6; EOpen 2 7; EPoll [(5, true, false); (6, true, false)];
                 EDisp 0 true false; EClose 1; EOpen 3 6] 3%nat true false [EEnd] eq_refl)
      as (u1 & rep & u2 & fd & H & N & [O _] & _).
    destruct (last_poll [EOpen 0 5; EOpen 1 6; EOpen 2 7] [(5, true, false); (6, true, false)]
                [EDisp 0 true false; EClose 1; EOpen 3 6] _ _ _ H eq_refl N) as (<- & _ & _).
    cbn in O. intuition discriminate.
Qed.
Print Assumptions C49_epoll_misdirected_refuted.

(** With epoll the same guarantees hold as long as every handler closes at
    most the object it was called for (for other handlers they do not, see
    above). *)
Theorem C49_epoll_careful : forall handler r,
  careful handler -> epoll_run handler r ->
  match r with
  | Ok s => distinct (rev (p_trace s)) /\ dispatch_ok (rev (p_trace s)) /\
            complete (rev (p_trace s))
  | UB => False
  | _ => True
  end.
Proof. exact epoll_run_spec. Qed.
Print Assumptions C49_epoll_careful.

Definition closes_self (s : pst) (p : nat) : list op :=
  if Nat.eqb p 1 then [OpClose 1; OpOpen 1 PIface 9] else [].

Example C49_epoll_ex : careful closes_self /\ exists s1 s2,
  exec_ops epoll_register epoll_close start three = Ok s1 /\
  epoll_can s1 [mkE 1 true true; mkE 3 true false] /\
  epoll_handle closes_self (EAReady [mkE 1 true true; mkE 3 true false]) s1 = Ok s2 /\
  rev (p_trace s2) =
    [EOpen 0 5; EOpen 1 6; EOpen 2 7; EPoll [(5, true, true); (7, true, false)];
     EDisp 0 true true; EClose 0; EOpen 3 9; EDisp 2 true false; EEnd].
Proof.
  split.
  - intros s p q. unfold closes_self. destruct (Nat.eqb p 1) eqn:E; [|intros []].
    apply Nat.eqb_eq in E. intros [H|[H|[]]]; [congruence|discriminate].
  - eexists. eexists. split; [vm_compute; reflexivity|]. split.
    + split; [cbn; lia|]. split.
      * repeat constructor; cbn; intuition discriminate.
      * intros e [<-|[<-|[]]]; vm_compute; auto.
    + split; vm_compute; reflexivity.
Qed.

(** Handlers that close their object, one report with and one without input *)
Example C49_handlers_ex : closing (fun _ p => [OpClose p]) /\ exists s1 s2,
  exec_ops epoll_register epoll_close start three = Ok s1 /\
  epoll_handle (fun _ p => [OpClose p]) (EAReady [mkE 1 false true; mkE 3 true false]) s1 = Ok s2 /\
  rev (p_trace s2) = [EOpen 0 5; EOpen 1 6; EOpen 2 7; EPoll [(5, false, true); (7, true, false)]; EDisp 0 false true; EDisp 2 true false; EClose 2; EEnd].
Proof.
  split; [intros s p; exists []; reflexivity|]. eexists. eexists. split; [vm_compute; reflexivity|]. split; vm_compute; reflexivity.
Qed.
