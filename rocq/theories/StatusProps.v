(** Theorems about the status socket *)
From Coq Require Import String.
From Verif Require Import Base BufferModel AddrModel FormatModel FormatSpec LogModel LogSpec NodeModel NodeSpec NodeExamples StatusModel StatusSpec StatusProofs3.
Local Open Scope Z_scope.

(** C69: in every state, the status is produced without undefined behaviour whatever is in the uninitialised buffers, and
    shows exactly the enabled peers, with their addresses in full, their connections, the method that
    packets are sent with, and the MAC addresses behind them. *)
Theorem C69_status : forall P x n, reachable P n -> status_ok x n -> exists j, dump_status x n = Ok j /\ shows_status P x n j.
Proof. exact status_shown. Qed.
Print Assumptions C69_status.

(** A client gets the beginning of the text, all of it if there are no errors and it has read enough, nothing after the connection was closed; the
    connection is closed and the memory freed exactly once. *)
Theorem C69_sent : forall text created ws es o, dump_start text created ws = (es, o) ->
  (exists rest, text = received es ++ rest /\
     match o with
     | Finished => created = true -> ~ In WError ws -> rest = []
     | Waiting => rest <> [] /\ (total ws < List.length text)%nat
     end) /\
  (forall a b, es = a ++ FClose :: b -> received b = []) /\
  (forall e, e = FClose \/ e = FPutJson \/ e = FFreeArg -> StatusSpec.ends e es = match o with Finished => 1%nat | Waiting => 0%nat end).
Proof. exact start_spec. Qed.
Print Assumptions C69_sent.

(** Of several instances that use the same path, whichever steps they take: the socket at the path is that of the instance which is running; binding does not
    fail because of an old socket; and an instance can be started whenever no other is running, even if others have crashed. *)
Theorem C69_lock : forall path l, let y := sys_run (mk_sys (fun _ => PStart) None path) l in
  (forall p, y_phase y p = PBound -> y_path y = Some p) /\
  (forall p, y_phase y p = PUnlinked -> y_phase (sys_step y (SBind p)) p = PBound) /\
  (forall p, y_phase y p = PStart -> (forall q, y_phase y q = PStart \/ y_phase y q = PDead) ->
     y_phase (sys_run y [SLock p; SUnlink p; SBind p]) p = PBound).
Proof. exact sys_safe. Qed.
Print Assumptions C69_lock.

(** A node with an established peer that has sent a frame *)
Definition ex_lib : lib :=
  mk_lib (fun _ => Some (str "192.0.2.7")) (fun _ => Some (str "fe80::1")) (fun _ => Some (str "eth0")) [] [].
Definition ex_extra : extra :=
  mk_extra 500 (Some (Some (str "fastd0"))) (fun _ => (3, 400)%N) true (fun _ => None) (fun _ => 700) (fun _ _ => (1, 100)%N) (fun _ => None)
    (fun _ => AInet [192; 0; 2; 7]%N [39; 16]%N) ex_lib (fun _ => repeat 170%N 100).
Example C69_nonvacuous : exists n p e, reachable P_tap n /\ status_ok ex_extra n /\ In p (n_peers n) /\ enabled p /\ p_state p = Established /\
  In e (n_eth n) /\ e_peer e = Some (p_id p) /\ shown_address ex_extra p = str "192.0.2.7:10000".
Proof.
  do 3 eexists. split; [|split; [|split; [|split; [|split; [|split; [|split]]]]]].
  - exists 1000%N, orc9, static9, [], evs9. vm_compute. reflexivity.
  - split; [|split; [|split]].
    + split; [|split].
      * intros ip. eexists. split; [reflexivity|]. split; [|vm_compute; repeat constructor]. intros H. vm_compute in H. intuition discriminate.
      * intros ip. eexists. split; [reflexivity|]. split; [|vm_compute; repeat constructor]. intros H. vm_compute in H. intuition discriminate.
      * intros i s E. injection E as <-. split; [|vm_compute; repeat constructor]. intros H. vm_compute in H. intuition discriminate.
    + intros a. split; [reflexivity|]. repeat constructor.
    + intros p [<-|[]]. split; [reflexivity|]. repeat constructor.
    + intros e H. cbn in H. repeat destruct H as [<-|H]; try reflexivity; destruct H.
  - left. reflexivity.
  - left. reflexivity.
  - reflexivity.
  - left. reflexivity.
  - reflexivity.
  - vm_compute. reflexivity.
Qed.
Example C69_text_in_parts : dump_start (str "{ }") true [Wrote 1; Wrote 0; Wrote 2] = ([FWrite (str "{"); FWrite []; FWrite (str " }"); FClose; FPutJson; FFreeArg], Finished) /\
  dump_start (str "{ }") true [Wrote 1] = ([FWrite (str "{")], Waiting).
Proof. split; vm_compute; reflexivity. Qed.
Example C69_after_crash : y_phase (sys_run (mk_sys (fun _ => PStart) None (Some 9%N))
  [SLock 1; SUnlink 1; SBind 1; SLock 2; SCrash 1; SLock 3; SUnlink 3; SBind 3]) 3 = PBound.
Proof. reflexivity. Qed.
