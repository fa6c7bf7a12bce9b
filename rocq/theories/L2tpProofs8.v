(** Proofs about L2TP offloading: the properties *)
From Coq Require Import List NArith Bool Lia ZifyBool ZifyN ZifyNat.
From Verif Require Import L2tpModel L2tpSpec L2tpProofs L2tpProofs2 L2tpProofs3 L2tpProofs4 L2tpProofs5 L2tpProofs6 L2tpProofs7.
Import ListNotations.
Local Open Scope N_scope.

Lemma run_done : forall c binds ops ans tuns s, foreign tuns -> defaults_ok c binds -> run c binds ops (start ans tuns) = Done tt s -> good c binds None s.
Proof. intros c binds ops ans tuns s F D E. pose proof (run_good c binds ops ans tuns F D) as H. unfold runsx in H. rewrite E in H. exact H. Qed.

Lemma safe_spec : forall c binds ops ans tuns, foreign tuns -> defaults_ok c binds ->
  let r := run c binds ops (start ans tuns) in
  r <> Bug /\ r <> Hang /\ r <> Wild /\ (c_exclusive c = true -> r <> Stale).
Proof.
  intros c binds ops ans tuns F D r. pose proof (run_good c binds ops ans tuns F D) as H. unfold runsx in H. fold r in H.
  split; [intros E; rewrite E in H; exact H|]. split; [intros E; rewrite E in H; exact H|]. split; [intros E; rewrite E in H; exact H|].
  intros X E. rewrite E in H. congruence.
Qed.

Lemma resources_spec : forall c binds ops ans tuns s, foreign tuns -> defaults_ok c binds -> run c binds ops (start ans tuns) = Done tt s ->
  NoDup (map k_fd (s_fds s)) /\
  (forall fd, open s fd <-> bound binds fd \/ (exists n, p_sock (s_peers s n) = Some fd) \/ (exists n e, live s n e /\ e_sock e = fd)) /\
  (forall fd n m, p_sock (s_peers s n) = Some fd -> p_sock (s_peers s m) = Some fd -> bound binds fd \/ n = m) /\
  (forall n e, live s n e -> ~ bound binds (e_sock e) /\ (forall m, p_sock (s_peers s m) <> Some (e_sock e)) /\ (forall m f, live s m f -> e_sock f = e_sock e -> m = n)) /\
  (forall t fd, In t (s_tuns s) -> t_fd t = Some fd -> exists n e, live s n e /\ e_sock e = fd) /\
  (forall n e, live s n e -> p_est (s_peers s n) = true).
Proof.
  intros c binds ops ans tuns s F D E. pose proof (run_done _ _ _ _ _ _ F D E) as G.
  destruct G as [g_fresh0 g_heap0 g_fds0 g_nodup0 g_static0 g_dyn0 g_offs0 g_sock0 g_live0 g_one0 g_acc0 g_excl0 g_est0 g_par0 g_tun0 g_work0].
  assert (Op : forall id so, s_heap s id = Some so -> open s id).
  { intros id so H. destruct (g_heap0 id so H) as (_ & r & Hin). exact (in_map k_fd _ _ Hin). }
  split; [exact g_nodup0|]. split; [|split; [|split; [|split]]].
  - intros fd. split.
    + intros H. unfold open in H. apply in_map_iff in H. destruct H as (k & <- & Hk). destruct (g_fds0 k Hk) as (so & Hso). destruct (so_kind so) as [|n|par] eqn:K.
      * left. apply g_static0. exists so. auto.
      * right. left. exists n. eapply g_dyn0; eassumption.
      * right. right. eapply g_offs0; eassumption.
    + intros [H|[(n & H)|(n & e & L & <-)]].
      * apply g_static0 in H. destruct H as (so & H & _). eapply Op; exact H.
      * destruct (g_sock0 n fd H) as [(so & A & _)|(so & A & _)]; eapply Op; exact A.
      * destruct (g_live0 n e L) as (so & ip & par & A & _). eapply Op; exact A.
  - intros fd n m Hn Hm. destruct (g_sock0 n fd Hn) as [H|(so & A & B)]; [left; apply g_static0; exact H|].
    destruct (g_sock0 m fd Hm) as [H|(so' & A' & B')]; [left; apply g_static0; exact H|]. right. congruence.
  - intros n e L. destruct (g_live0 n e L) as (so & ip & par & A & B & _). split; [|split].
    + intros H. apply g_static0 in H. destruct H as (so' & A' & B'). congruence.
    + intros m H. destruct (g_sock0 m _ H) as [(so' & A' & B')|(so' & A' & B')]; congruence.
    + intros m f Lf H. eapply g_one0; eassumption.
  - exact g_tun0.
  - intros n e L. apply (g_est0 n e); [discriminate | exact L].
Qed.

Lemma working_spec : forall c binds ops ans tuns s, c_reliable c = true -> foreign tuns -> defaults_ok c binds -> run c binds ops (start ans tuns) = Done tt s ->
  (forall n e, live s n e ->
     In (mk_tun (e_conn e) (Some (e_sock e)) (Some (e_name e, c_mtu c n))) (s_tuns s) /\ e_conn e <> 0 /\ e_name e <> 0 /\
     (forall x, c_name c n = Some x -> x = 0 \/ e_name e = x) /\
     In (mk_kfd (e_sock e) (Some (fst (p_local (s_peers s n)))) (snd (p_local (s_peers s n))) (p_addr (s_peers s n))) (s_fds s)) /\
  NoDup (map t_id (s_tuns s)) /\ NoDup (names (s_tuns s)).
Proof.
  intros c binds ops ans tuns s R F D E. pose proof (run_done _ _ _ _ _ _ F D E) as G. destruct (g_work _ _ _ _ G R) as (W1 & W2 & W3 & W4 & W5).
  split; [|auto]. intros n e L. destruct (W4 n e L) as (A & B & C & Mt & N). rewrite <- Mt. split; [exact A|]. split; [exact B|]. split; [exact C|]. split; [exact N|].
  apply W5; [discriminate | exact L].
Qed.

Lemma nodup_inj : forall A (f : A -> N) l x y, NoDup (map f l) -> In x l -> In y l -> f x = f y -> x = y.
Proof.
  intros A f l x y. induction l as [|v l IH]; intros H Hx Hy E; [destruct Hx|]. cbn in H. inversion H as [|? ? Hn Hd]; subst.
  destruct Hx as [->|Hx], Hy as [->|Hy]; auto.
  - exfalso. apply Hn. rewrite E. apply in_map. exact Hy.
  - exfalso. apply Hn. rewrite <- E. apply in_map. exact Hx.
Qed.
Lemma names_inj : forall l t u m x y, NoDup (names l) -> In t l -> In u l -> t_ses t = Some (m, x) -> t_ses u = Some (m, y) -> t = u.
Proof.
  induction l as [|v l IH]; intros t u m x y H Ht Hu Et Eu; [destruct Ht|].
  change (names (v :: l)) with ((match t_ses v with Some (m, _) => [m] | None => [] end) ++ names l) in H. apply NoDup_app_l in H. destruct H as (A & B & D).
  destruct Ht as [->|Ht], Hu as [->|Hu]; auto.
  - exfalso. rewrite Et in D. apply (D m); [left; reflexivity|]. apply in_names. eauto.
  - exfalso. rewrite Eu in D. apply (D m); [left; reflexivity|]. apply in_names. eauto.
  - eapply IH; eassumption.
Qed.
Lemma distinct_spec : forall c binds ops ans tuns s, c_reliable c = true -> foreign tuns -> defaults_ok c binds -> run c binds ops (start ans tuns) = Done tt s ->
  forall n m e f, n <> m -> live s n e -> live s m f -> e_sock e <> e_sock f /\ e_conn e <> e_conn f /\ e_name e <> e_name f.
Proof.
  intros c binds ops ans tuns s R F D E n m e f Nm Le Lf. pose proof (run_done _ _ _ _ _ _ F D E) as G. destruct (g_work _ _ _ _ G R) as (W1 & W2 & W3 & W4 & W5).
  destruct (W4 n e Le) as (A & _). destruct (W4 m f Lf) as (B & _).
  assert (S1 : e_sock e <> e_sock f) by (intros X; apply Nm; exact (g_one _ _ _ _ G n m e f Le Lf X)).
  split; [exact S1|]. split; intros X.
  - pose proof (nodup_inj _ t_id _ _ _ W2 A B X) as Y. injection Y as _ Y _ _. contradiction.
  - rewrite X in A. pose proof (names_inj _ _ _ _ _ _ W3 A B eq_refl eq_refl) as Y. injection Y as _ Y _. contradiction.
Qed.

(** ** Witnesses *)

Definition cfg (reliable exclusive : bool) : config := mk_config reliable exclusive None None (fun _ => Some 0) (fun _ => 1400).
Definition boot : list N := [0; 0; 1; 0; 1; 0; 0; 0; 9; 0; 0].
Definition boot' : list N := [0; 0; 0; 1; 0; 0; 0; 0; 1; 0; 0; 0; 0; 0; 0; 0; 9; 0; 0; 0; 0; 0; 0; 0].
Definition one_bind : list (option N * N) := [(None, 10)].
Lemma cfg_defaults : forall r x, defaults_ok (cfg r x) one_bind.
Proof. intros r x d [H|H]; discriminate. Qed.
Lemma no_tuns : foreign []. Proof. unfold foreign. split; [intros t []|]. split; constructor. Qed.

(** A peer moves from a socket of its own to one with the same address *)
Definition shared_ops : list op :=
  [OHandshake 0 99 false None; OPacket 3 (1, 10) 99 0 true true; OPacket 2 (1, 10) 99 0 true true; OPacket 4 (1, 10) 99 0 true true].
Definition shared_ans : list N := boot ++ [0; 10; 0; 0; 5; 0; 0; 0; 7; 0; 0; 0; 0].
Lemma parent_wit : run (cfg true false) one_bind shared_ops (start shared_ans []) = Stale.
Proof. vm_compute. reflexivity. Qed.

(** The requests for the tunnel and the session are not even sent *)
Definition failed_ops : list op := [OOther 5 (Some 7) true; OPacket 2 (1, 10) 99 0 true true].
Definition failed_ans : list N := boot' ++ [0; 0; 5; 11; 11; 0; 0; 0; 0; 0; 0; 0].
Lemma success_wit : exists s e, run (cfg false true) one_bind failed_ops (start failed_ans []) = Done tt s /\ live s 0 e /\
  p_est (s_peers s 0) = true /\ s_tuns s = [mk_tun 5 None (Some (7, 1400))] /\ e_conn e = 5 /\ e_name e = 7.
Proof. eexists _, _. split; [vm_compute; reflexivity|]. vm_compute. repeat split; reflexivity. Qed.

(** An acknowledgement could not be received *)
Definition lost_ops : list op := [OPacket 2 (1, 10) 99 0 true true].
Definition lost_ans : list N := boot' ++ [0; 0; 5; 0; 0; 0; 0; 0; 0; 0; 7; 0; 0; 0; 0; 0; 0; 0; 4; 0].
Lemma lost_wit : exists s, run (cfg false true) one_bind lost_ops (start lost_ans []) = Done tt s /\ (exists e, live s 0 e) /\ behind s /\ s_seq s = 7.
Proof.
  eexists. split; [vm_compute; reflexivity|]. split; [eexists; vm_compute; reflexivity|]. split; [|reflexivity].
  unfold behind. cbn. split; [discriminate|]. intros m [<-|[]]. cbn. lia.
Qed.
Lemma recovers_spec : exists s, run (cfg false true) one_bind lost_ops (start lost_ans []) = Done tt s /\ (exists e, live s 0 e) /\
  forall ans l s', 6 * N.of_nat (length l) < 2 ^ 32 - 7 -> do_ops (cfg false true) l (set_ans ans s) = Done tt s' -> forall n e, live s' n e -> live s n e.
Proof.
  destruct lost_wit as (s & A & B & C & Sq). exists s. split; [exact A|]. split; [exact B|]. intros ans l s' L E.
  assert (Bh : behind (set_ans ans s)) by exact C. destruct (stuck_spec (cfg false true) l (set_ans ans s) s' Bh) as (_ & H); [cbn [s_seq set_ans]; lia | exact E | exact H].
Qed.

(** Two peers, one of them on a socket of its own, and a tunnel of another program *)
Definition two_ops : list op := [OHandshake 1 98 false None; OPacket 3 (2, 40) 98 1 true true; OPacket 2 (1, 10) 99 0 true true; OOther 4 (Some 3) true; OPacket 4 (2, 40) 97 1 true true].
Definition two_ans : list N := boot ++ [0; 40; 0; 0; 8; 0; 0; 0; 20; 0; 0; 0;  0; 0; 8; 0; 0; 6; 0; 0; 0; 21; 0; 0; 0;  0].
Lemma two_wit : exists s e f, run (cfg true true) one_bind two_ops (start two_ans []) = Done tt s /\ live s 0 e /\ live s 1 f /\ e_conn e = 6 /\ e_conn f = 8 /\
  length (s_fds s) = 4%nat /\ length (s_tuns s) = 3%nat /\ p_addr (s_peers s 1) = 97.
Proof. eexists _, _, _. split; [vm_compute; reflexivity|]. vm_compute. repeat split; reflexivity. Qed.
