(** C65: scripts see matched pairs *)
From Coq Require Import List NArith Bool.
From Verif Require Import LifeModel LifeSpec LifeProofs4.
Import ListNotations.
Local Open Scope N_scope.

(** At every moment of every execution, also one that ends with an error, the
    events so far are in a lawful order (LifeSpec.v): the pre-up script comes
    first; an interface is opened, announced by the up script, by the down script
    and closed, in this order and again and again; a peer has at most one
    interface; establish and disestablish scripts alternate for each peer, and a
    connection is only announced while an interface that carries it is up; the
    shared interface goes down when no peer has an interface or a connection any
    more; the post-down script is last. *)
Theorem C65_lawful : forall c static dirs ops answers, lawful (trace (main c static dirs ops answers [])).
Proof. exact lawful_all. Qed.
Theorem C65_lawful_meanwhile : forall c static dirs ops answers, lawful (trace (running c static dirs ops answers [])).
Proof. exact lawful_running. Qed.

(** If the process is ended by a signal, nothing stays open: every up script got
    its down script and every establish script its disestablish script, and the
    post-down script ran last. *)
Theorem C65_ends_clean : forall c static dirs ops answers u rest tr, main c static dirs ops answers [] = Go u rest tr ->
  (exists r, tr = EPostDown :: r /\ quiet r) /\
  (forall x, count (EOpen x) tr = count (EClose x) tr /\ count (EUp x) tr = count (EOpen x) tr /\ count (EDown x) tr = count (EOpen x) tr) /\
  (forall p, count (EEst p) tr = count (EDis p) tr).
Proof. exact ends_clean. Qed.

(** Which interfaces exist while the process waits for events: the shared one in
    TAP mode and no other; else a peer's own one, as long as its connection lasts,
    or with `persist interface` all the time it is configured (a peer from a peer
    directory whose interface could not be created gets it with its connection).
    Peers that are disabled or gone have none. *)
Theorem C65_present : forall c static dirs ops answers w rest tr, running c static dirs ops answers [] = Go w rest tr ->
  stage_of Main tr = (if c_shared c then Running else Closed) /\
  (forall p, In p (w_peers w) ->
    connected (p_id p) tr = is_established p /\
    (is_established p = true -> is_enabled p = true /\ carried (p_id p) tr) /\
    (is_enabled p = false \/ c_shared c = true -> stage_of (Own (p_id p)) tr = Closed /\ stage_of (Offload (p_id p)) tr = Closed) /\
    (c_shared c = false -> c_persist c = false \/ is_dynamic p = true -> is_established p = false ->
       stage_of (Own (p_id p)) tr = Closed /\ stage_of (Offload (p_id p)) tr = Closed) /\
    (c_shared c = false -> c_persist c = true -> is_enabled p = true -> is_dynamic p = false ->
       stage_of (Own (p_id p)) tr = Running \/ p_dir p = true /\ is_established p = false)) /\
  (forall id, ~ In id (map p_id (w_peers w)) ->
    stage_of (Own id) tr = Closed /\ stage_of (Offload id) tr = Closed /\ connected id tr = false).
Proof. exact present. Qed.

(** If the process ends because of an error, this is not so: with persistent
    interfaces, a peer of the configuration file whose key also appeared in a peer
    directory is enabled again by a reload; if its interface cannot be created,
    the process exits at once, while another peer is connected and its interface
    up. *)
Theorem C65_ends_clean_after_error_refuted :
  exists c static dirs ops answers tr,
    running c static dirs ops answers [] = Halt tr /\
    connected 1 tr = true /\ stage_of (Own 1) tr = Running.
Proof.
  exists (mk_config false true false 99), [(5, 0); (7, 0)], [(7, 1)], [OpEstablish 1 None; OpReload []], [true; true; false].
  eexists; split; [reflexivity | split; reflexivity].
Qed.

(** An execution in TUN mode without persistent interfaces: two peers connect, one
    of them is dynamic and times out, a reload removes nothing, the process ends *)
Example C65_nonvacuous :
  exists u rest tr,
    main (mk_config false false false 99) [(5, 0)] [(6, 0)]
         [OpEstablish 1 None; OpDynamic 8; OpEstablish 3 None; OpReload [(6, 0)]; OpDrop 3; OpResetAll; OpEstablish 2 None] [] [] = Go u rest tr /\
    rev tr = [EPreUp; EReady; EOpen (Own 1); EUp (Own 1); EEst 1; EOpen (Own 3); EUp (Own 3); EEst 3;
              EDis 3; EDown (Own 3); EClose (Own 3); EDis 1; EDown (Own 1); EClose (Own 1);
              EOpen (Own 2); EUp (Own 2); EEst 2; EDis 2; EDown (Own 2); EClose (Own 2); EPostDown].
Proof. do 3 eexists; split; [vm_compute; reflexivity | reflexivity]. Qed.

(** TAP mode, and offloading with a session that has to be replaced *)
Example C65_nonvacuous_tap :
  exists u rest tr,
    main (mk_config true true false 99) [(5, 0)] [] [OpEstablish 1 None; OpReset 1; OpEstablish 1 None] [] [] = Go u rest tr /\
    rev tr = [EPreUp; EOpen Main; EReady; EUp Main; EEst 1; EDis 1; EEst 1; EDis 1; EDown Main; EClose Main; EPostDown].
Proof. do 3 eexists; split; [vm_compute; reflexivity | reflexivity]. Qed.
Example C65_nonvacuous_offload :
  exists w rest tr,
    running (mk_config false false true 99) [(5, 0)] [] [OpEstablish 1 None; OpEstablish 1 (Some 0); OpEstablish 1 (Some 0)] [true; true; false] [] = Go w rest tr /\
    rev tr = [EPreUp; EReady; EOpen (Own 1); EUp (Own 1); EEst 1; EDown (Own 1); EClose (Own 1); EOpen (Offload 1); EUp (Offload 1);
              EDown (Offload 1); EClose (Offload 1); EOpen (Offload 1); EUp (Offload 1)].
Proof. do 3 eexists; split; [vm_compute; reflexivity | reflexivity]. Qed.

Print Assumptions C65_lawful.
Print Assumptions C65_lawful_meanwhile.
Print Assumptions C65_ends_clean.
Print Assumptions C65_present.
Print Assumptions C65_ends_clean_after_error_refuted.
