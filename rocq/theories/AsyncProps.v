(** C66: results of helper threads reach the main thread intact *)
From Coq Require Import List NArith Bool.
From Verif Require Import Base BufferModel AddrModel AsyncModel AsyncSpec AsyncProofs2.
Import ListNotations.
Local Open Scope N_scope.

(** In every interleaving of the main thread, resolver and verifier threads and signal
    handlers nothing goes wrong (no access outside of a buffer, no unknown type, no
    blocked or failed read), and the notifications handled so far, followed by as many
    as are in the socket, are exactly those that were sent, in the order in which they
    were sent: each one the result of the job of its thread, with that job's peer and
    remote or verification data, and in the case of a resolver all IPv4 and IPv6
    addresses found and no others (AsyncSpec.v). *)
Theorem C66_delivered : forall es r, Forall event_ok es -> arun es ainit = Some r ->
  exists s pend, r = Ok s /\ a_calls s ++ pend = sent es /\ length (a_queue s) = length pend.
Proof. exact delivered. Qed.

(** Each job sends at most one result. *)
Theorem C66_once : forall es r, Forall event_ok es -> arun es ainit = Some r ->
  NoDup (ended es) /\ forall t, In t (ended es) -> (t < length (jobs es))%nat.
Proof. exact once. Qed.

(** At any moment, reading from the socket until it is empty handles everything that was sent. *)
Theorem C66_drained : forall es s, Forall event_ok es -> arun es ainit = Some (Ok s) ->
  exists rest s', arun (es ++ rest) ainit = Some (Ok s') /\ a_calls s' = sent es /\ a_queue s' = [] /\
    Forall (fun e => e = EPeek \/ e = ERecv) rest.
Proof. exact drained. Qed.

(** Two host names and a verification at the same time: the second host name is found
    first; among the addresses of the first one are a v4-mapped one, one of another
    family and one that is too long; a signal arrives while the main thread is between
    its two reads, and a result is lost as the socket is full. *)
Definition ex_local : saddr := AInet [192; 0; 2; 1] [39; 16].
Definition ex_remote : saddr := AInet6 (32 :: 1 :: 13 :: 184 :: repeat 0 11 ++ [7]) [39; 17] [0; 0; 0; 0] [0; 0; 0; 0].
Definition ex_v6 : bytes := [10; 0; 39; 18; 0; 0; 0; 0] ++ [32; 1; 13; 184] ++ repeat 0 11 ++ [9] ++ [0; 0; 0; 0].
Definition ex_mapped : bytes := [10; 0; 39; 18; 0; 0; 0; 0] ++ repeat 0 10 ++ [255; 255; 198; 51; 100; 3] ++ [0; 0; 0; 0].
Definition ex_v4 : bytes := [2; 0; 39; 18; 203; 0; 113; 5] ++ repeat 0 8.
Definition ex_run : list aevent :=
  [ EStart (JResolve 5 0); EStart (JResolve 5 1); EStart (JVerify 9 4096 ex_local ex_remote [1; 2; 3]);
    EDone 1 (Addresses [ex_v4] (fun _ => 170)) true; EPeek; EDone 2 (Verdict true) true; ESignal true; ERecv;
    EDone 0 (Addresses [ex_v6; [17; 0; 1]; ex_mapped; ex_v4 ++ repeat 0 13] (fun i => N.of_nat i)) true; EStart (JResolve 6 0);
    EPeek; ERecv; EPeek; ERecv; EDone 3 (Addresses [] (fun _ => 0)) false; EPeek; ERecv ].

Example C66_nonvacuous : Forall event_ok ex_run /\
  arun ex_run ainit = Some (Ok (mk_astate [] MIdle [None; None; None; None]
    [ CResolve 5 1 [AInet [203; 0; 113; 5] [39; 18]]; CVerify true 9 4096 ex_local ex_remote [1; 2; 3]; CNop;
      CResolve 5 0 [AInet6 (32 :: 1 :: 13 :: 184 :: repeat 0 11 ++ [9]) [39; 18] [0; 0; 0; 0] [0; 0; 0; 0]; AInet [198; 51; 100; 3] [39; 18]] ])).
Proof.
  split; [|vm_compute; reflexivity].
  assert (HB : forall l, forallb is_byteb l = true -> wf_bytes l).
  { intros l H. apply Forall_forall. intros x Hx. rewrite forallb_forall in H. apply N.ltb_lt. exact (H x Hx). }
  assert (HE : forall raw, forallb is_byteb raw = true -> (2 <=? N.of_nat (length raw)) = true -> wf_bytes raw /\ (2 <= length raw)%nat).
  { intros raw H1 H2. split; [exact (HB raw H1)|]. apply N.leb_le in H2. Lia.lia. }
  repeat (apply Forall_cons); try apply Forall_nil; cbn [event_ok job_ok answer_ok]; try exact Logic.I;
    try (split; reflexivity);
    try (split; [repeat (apply Forall_cons); try apply Forall_nil; apply HE; vm_compute; reflexivity|vm_compute; reflexivity]).
  split; [reflexivity|]. split; [reflexivity|].
  split; [cbn [swf ex_local]; repeat split; try (apply HB); reflexivity|].
  split; [cbn [swf ex_remote]; repeat split; try (apply HB); reflexivity|].
  split; [intros a f [->| ->] E; discriminate|].
  split; [apply HB; reflexivity|vm_compute; reflexivity].
Qed.

Print Assumptions C66_delivered.
Print Assumptions C66_once.
Print Assumptions C66_drained.
