(** Theorems about nodes, part 4: crashes.  [Print Assumptions] follows each one. *)
From Verif Require Import Base BufferModel NonceModel MethodModel HandshakeModel HandshakeSpec NodeModel NodeSpec NodeProofs NodeCrashSpec NodeSafe6 NodeSafe7 NodeExamples.
From Coq Require Import Lia.
Local Open Scope Z_scope.

(** C53: an execution without risky events never crashes, whatever is received and
    whatever the environment does. *)
Theorem C53_no_crash : forall P now orc static dirs evs, no_risky P now orc static dirs evs -> ~ crashes (execute P now orc static dirs evs).
Proof. exact no_crash. Qed.
Print Assumptions C53_no_crash.

(** In particular no execution crashes if unknown peers are not verified, every peer is
    defined with a remote and no packet comes in on a socket opened for a single peer. *)
Theorem C53_bound : forall P now orc static dirs evs, c_verify P = None ->
  (forall c, In c (static ++ dirs) -> pc_remotes c <> []) -> (forall dt defs c, In (dt, EvReload defs) evs -> In c defs -> pc_remotes c <> []) ->
  (forall dt o i la ra d, ~ In (dt, EvRecv (SDyn o i) la ra d) evs) -> ~ crashes (execute P now orc static dirs evs).
Proof. exact no_crash_bound. Qed.
Print Assumptions C53_bound.

(** Peer 1 may float and has the remote 7, peer 2 may float; node 1 opens a socket for peer 1. *)
Definition P_free : params := ex_params true None None.
Definition static98 : list pconf := [ex_conf 9 [(None, 7%N)] true; ex_conf 8 [] true].
Definition own (d : bytes) : event := EvRecv (SDyn 1 0) 5%N 7%N d.
Definition evs_own : list (N * event) := [(5000%N, EvTask 1); (10%N, own (pkt_resp 9 50 1))].

(** The hypothesis is met when peer 1 is contacted and answers on its socket, ... *)
Example C53_example : no_risky P_free 1000 [0; 0; 1]%N static98 [] evs_own.
Proof.
  intros evs1 dt ev evs2 n E He Hr. destruct evs1 as [|e1 [|e2 [|e3 evs1]]]; cbn [app] in E.
  - injection E as <- <- <-. vm_compute in He. injection He as <-. destruct Hr as (p & Hin & Hid & Hrem & _).
    destruct Hin as [<- | [<- | []]]; vm_compute in Hid, Hrem; discriminate.
  - injection E as <- <- <- <-. vm_compute in He. injection He as <-. destruct Hr as (p & Hin & Hid & Hs).
    destruct Hin as [<- | [<- | []]]; [apply Hid; reflexivity|]. destruct Hs as (pkt & h & [-> | ->] & Hp & Hv); vm_compute in Hp; injection Hp as <-; vm_compute in Hv; discriminate.
  - apply (f_equal (@length _)) in E. cbn [evs_own length] in E. lia.
  - apply (f_equal (@length _)) in E. cbn [evs_own length] in E. rewrite app_length in E. cbn [length] in E. lia.
Qed.

(** ... but a handshake of peer 2 on the socket of peer 1 makes the program call
    [exit_bug], ... *)
Theorem C53_refuted_bug : execute P_free 1000 [0; 0; 1]%N static98 []
  [(5000%N, EvTask 1); (10%N, own (pkt_init 8 50)); (10%N, own (pkt_fin 8 50 1 m_gmac))] = Bug.
Proof. vm_compute. reflexivity. Qed.
Print Assumptions C53_refuted_bug.

(** ... or use the socket after it was closed, if peer 1 is connected. *)
Theorem C53_refuted_freed : execute P_free 1000 [0; 0; 1]%N static98 []
  (evs_own ++ [(10%N, own (pkt_init 8 60)); (10%N, own (pkt_fin 8 60 1 m_gmac))]) = UB.
Proof. vm_compute. reflexivity. Qed.
Print Assumptions C53_refuted_freed.

(** C37: the timer of a peer that has remotes, or is connected, or is not due for a
    handshake, never makes the program crash. *)
Theorem C37_task : forall P now orc static dirs evs n dt pid p, no_risky P now orc static dirs evs -> execute P now orc static dirs evs = Ok n ->
  In p (n_peers n) -> p_id p = pid -> p_remotes p <> [] \/ p_state p = Established \/ ~ handshake_due (n_now n + Z.of_N dt) p ->
  ~ crashes (step P (dt, EvTask pid) n).
Proof. exact task_safe. Qed.
Print Assumptions C37_task.

(** the peer of the example *)
Example C37_example : exists n p, execute P_free 1000 [0; 0; 1]%N static98 [] evs_own = Ok n /\ In p (n_peers n) /\ p_id p = 1%N /\ p_remotes p <> [].
Proof.
  eexists. eexists. split; [vm_compute; reflexivity|]. split; [left; reflexivity|]. split; [reflexivity|]. vm_compute. discriminate.
Qed.
