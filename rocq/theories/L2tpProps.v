(** C71: offloading to the kernel's L2TP implementation.  Nothing but the property
    theorems; see L2tpModel.v and L2tpSpec.v for the definitions. *)
From Coq Require Import List NArith Bool.
From Verif Require Import L2tpModel L2tpSpec L2tpProofs7 L2tpProofs8.
Import ListNotations.
Local Open Scope N_scope.

(** No execution stops with an internal error, waits forever for a Netlink message or
    uses a socket that is gone, whatever fails.  The same holds for the parent of an
    offload socket, if the system gives no socket an address that is in use. *)
Theorem C71_safe : forall c binds ops ans tuns, foreign tuns -> defaults_ok c binds ->
  let r := run c binds ops (start ans tuns) in
  r <> Bug /\ r <> Hang /\ r <> Wild /\ (c_exclusive c = true -> r <> Stale).
Proof. exact safe_spec. Qed.
Print Assumptions C71_safe.

(** Otherwise (sockets bound to different interfaces may share a port) the parent can
    be used after it was freed. *)
Theorem C71_parent_refuted : ~ (forall c binds ops ans tuns, foreign tuns -> defaults_ok c binds -> run c binds ops (start ans tuns) <> Stale).
Proof. intros H. exact (H (cfg true false) one_bind shared_ops shared_ans [] no_tuns (cfg_defaults true false) parent_wit). Qed.
Print Assumptions C71_parent_refuted.

(** Nothing is leaked, whatever fails: open sockets are those of the bind addresses, of
    peers and of sessions of peers, each with one user only; tunnels of ours are on
    sockets of sessions; only established peers have one. *)
Theorem C71_resources : forall c binds ops ans tuns s, foreign tuns -> defaults_ok c binds -> run c binds ops (start ans tuns) = Done tt s ->
  NoDup (map k_fd (s_fds s)) /\
  (forall fd, open s fd <-> bound binds fd \/ (exists n, p_sock (s_peers s n) = Some fd) \/ (exists n e, live s n e /\ e_sock e = fd)) /\
  (forall fd n m, p_sock (s_peers s n) = Some fd -> p_sock (s_peers s m) = Some fd -> bound binds fd \/ n = m) /\
  (forall n e, live s n e -> ~ bound binds (e_sock e) /\ (forall m, p_sock (s_peers s m) <> Some (e_sock e)) /\ (forall m f, live s m f -> e_sock f = e_sock e -> m = n)) /\
  (forall t fd, In t (s_tuns s) -> t_fd t = Some fd -> exists n e, live s n e /\ e_sock e = fd) /\
  (forall n e, live s n e -> p_est (s_peers s n) = true).
Proof. exact resources_spec. Qed.
Print Assumptions C71_resources.

(** If no Netlink message is lost, a session is what it should be in the kernel: a
    tunnel on its socket with an interface of the right name and MTU, the socket bound
    and connected to the current addresses of the peer. *)
Theorem C71_working : forall c binds ops ans tuns s, c_reliable c = true -> foreign tuns -> defaults_ok c binds -> run c binds ops (start ans tuns) = Done tt s ->
  (forall n e, live s n e ->
     In (mk_tun (e_conn e) (Some (e_sock e)) (Some (e_name e, c_mtu c n))) (s_tuns s) /\ e_conn e <> 0 /\ e_name e <> 0 /\
     (forall x, c_name c n = Some x -> x = 0 \/ e_name e = x) /\
     In (mk_kfd (e_sock e) (Some (fst (p_local (s_peers s n)))) (snd (p_local (s_peers s n))) (p_addr (s_peers s n))) (s_fds s)) /\
  NoDup (map t_id (s_tuns s)) /\ NoDup (names (s_tuns s)).
Proof. exact working_spec. Qed.
Print Assumptions C71_working.

(** Then sessions of different peers share nothing. *)
Theorem C71_distinct : forall c binds ops ans tuns s, c_reliable c = true -> foreign tuns -> defaults_ok c binds -> run c binds ops (start ans tuns) = Done tt s ->
  forall n m e f, n <> m -> live s n e -> live s m f -> e_sock e <> e_sock f /\ e_conn e <> e_conn f /\ e_name e <> e_name f.
Proof. exact distinct_spec. Qed.
Print Assumptions C71_distinct.

(** If messages can be lost, a session need not exist in the kernel: a failure to send
    or to receive counts as success, and the interface may be another program's. *)
Theorem C71_success_refuted : ~ (forall c binds ops ans tuns s, foreign tuns -> defaults_ok c binds -> run c binds ops (start ans tuns) = Done tt s ->
  forall n e, live s n e -> exists t, In t (s_tuns s) /\ t_id t = e_conn e /\ t_fd t = Some (e_sock e)).
Proof.
  intros H. destruct success_wit as (s & e & A & L & _ & T & _). destruct (H _ _ _ _ _ s no_tuns (cfg_defaults false true) A 0 e L) as (t & Ht & _ & X).
  rewrite T in Ht. destruct Ht as [<-|[]]. discriminate.
Qed.
Print Assumptions C71_success_refuted.

(** Once messages of an earlier request wait to be received, no session can be started
    any more, for as many requests as there are sequence numbers. *)
Theorem C71_stuck : forall c l s s', behind s -> s_seq s + 6 * N.of_nat (length l) < 2 ^ 32 -> do_ops c l s = Done tt s' ->
  behind s' /\ forall n e, live s' n e -> live s n e.
Proof. exact stuck_spec. Qed.
Print Assumptions C71_stuck.

(** One failed receive suffices for that, even if nothing fails afterwards. *)
Theorem C71_recovers_refuted : exists s, run (cfg false true) one_bind lost_ops (start lost_ans []) = Done tt s /\ (exists e, live s 0 e) /\
  forall ans l s', 6 * N.of_nat (length l) < 2 ^ 32 - 7 -> do_ops (cfg false true) l (set_ans ans s) = Done tt s' -> forall n e, live s' n e -> live s n e.
Proof. exact recovers_spec. Qed.
Print Assumptions C71_recovers_refuted.

(** The hypotheses are met: two offloaded peers, one of them on a socket of its own and
    with a changed address, beside another program's tunnel *)
Example C71_nonvacuous : foreign [] /\ defaults_ok (cfg true true) one_bind /\
  exists s e f, run (cfg true true) one_bind two_ops (start two_ans []) = Done tt s /\ live s 0 e /\ live s 1 f /\ e_conn e = 6 /\ e_conn f = 8 /\
    length (s_fds s) = 4%nat /\ length (s_tuns s) = 3%nat /\ p_addr (s_peers s 1) = 97.
Proof. exact (conj no_tuns (conj (cfg_defaults true true) two_wit)). Qed.
Example C71_stuck_nonvacuous : exists s, run (cfg false true) one_bind lost_ops (start lost_ans []) = Done tt s /\ (exists e, live s 0 e) /\ behind s /\ s_seq s = 7.
Proof. exact lost_wit. Qed.
