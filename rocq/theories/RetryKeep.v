(** Handshakes are not put off *)
From Verif Require Import Base BufferModel NonceModel MethodModel HandshakeModel NodeModel NodeSpec NodeSteps NodeWf NodeInv NodeFun NodeFun2 NodeSafe NodeSafe2 NodeKeep NodeProofs RetryHoare RetryHoare2 RetryHoare3 RetryInv RetrySpec RetryTurn RetryTurn2.
From Coq Require Import Lia ZifyBool ZifyNat ZifyN Sorted.
Local Open Scope Z_scope.

Section Keep.
Variables (t h : Z) (p : peer).
Definition kept (q : peer) : Prop := p_remotes q = p_remotes p /\ p_next_remote q = p_next_remote p /\ p_next_hs q = Some h.
Definition anew (q : peer) : Prop := position q = Some (0, 0)%nat /\
  exists d, p_next_hs q = Some (t + d) /\ 0 <= d /\ ((p_state q = Handshaking /\ d < 3000) \/ (p_state q = Resolving /\ d < 22500)).
Definition resolved (q : peer) : Prop := p_next_remote q = p_next_remote p /\
  (p_next_hs q = Some h \/ exists d, p_next_hs q = Some (t + d) /\ 0 <= d < 3000).
Definition off (q : peer) : Prop := p_state q = Inactive \/ is_established q = true \/ p_remotes q = [].

(** what holds of the peer, given what may happen to it *)
Definition fate (C : peer -> Prop) (q : peer) : Prop := p_id q = p_id p -> off q \/ anew q \/ C q.
Lemma off_same : forall q q', same q q' -> off q -> off q'.
Proof. intros q q' S. unfold off, is_established. rewrite (sm_state _ _ S), (sm_remotes _ _ S). trivial. Qed.
Lemma anew_same : forall q q', same q q' -> anew q -> anew q'.
Proof. intros q q' S. unfold anew, position. rewrite (sm_state _ _ S), (sm_remotes _ _ S), (sm_next _ _ S), (sm_hs _ _ S). trivial. Qed.

Variable C : peer -> Prop.
Hypothesis Csame : forall q q', same q q' -> C q -> C q'.
Hypothesis Cconf : forall q c, C q -> C (set_p_conf c q).
Hypothesis Csome : forall q, C q -> p_next_hs q <> None.

Lemma anew_fresh : forall q q', fresh t q q' -> off q' \/ anew q'.
Proof.
  intros q q' (R & D1 & D2). destruct (is_enabled q); [|left; left; apply D1; reflexivity]. specialize (D2 eq_refl). pose proof (rd_next _ _ _ R) as Hn. unfold off, anew, position.
  destruct (p_remotes q') as [|r l] eqn:Er; [left; right; right; reflexivity|]. destruct D2 as (Hc & d & tk & E1 & E2 & H1 & H2 & H3). right. rewrite Hn. cbn [nth_error]. rewrite Hc. split; [reflexivity|].
  exists d. split; [exact E1|]. split; [exact H2|]. destruct (r_host r); [right | left]; exact H3.
Qed.
Lemma fate_base : base t (fate C).
Proof.
  constructor.
  - intros q q' S F Hi. rewrite (sm_id _ _ S) in Hi. destruct (F Hi) as [X | [X | X]]; [left; exact (off_same _ _ S X) | right; left; exact (anew_same _ _ S X) | right; right; exact (Csame _ _ S X)].
  - intros q d F Hn _ Hi. destruct (sched_is (set_p_next_hs (Some (t + d)) q)) as [tk E]. rewrite E in *. destruct (F Hi) as [X | [(_ & d' & X & _) | X]]; [left; exact X | congruence | contradiction (Csome _ X Hn)].
Qed.
Lemma fate_closed : closed t (fate C).
Proof.
  constructor; [exact fate_base | | | | |].
  - intros q r k F _ Hi. left. right. left. unsched. reflexivity.
  - intros q d F He _ Hi. left. right. left. unsched. exact He.
  - intros q s F He _ Hi. left. right. left. unsched. exact He.
  - intros q s F He _ _ Hi. left. right. left. exact He.
  - intros q q' F Hf Hi. destruct (anew_fresh _ _ Hf) as [X | X]; [left | right; left]; exact X.
Qed.
Lemma fate_new : forall id c st serial, fate C (new_peer id c st serial).
Proof. intros id c st serial Hi. left. left. reflexivity. Qed.
Lemma fate_conf : forall q c, fate C q -> is_dynamic q = false -> c <> CDynamic -> fate C (set_p_conf c q).
Proof.
  intros q c F _ _ Hi. destruct (F Hi) as [X | [X | X]]; [left; exact X | right; left; exact X | right; right; exact (Cconf _ c X)].
Qed.

(** the tasks of other peers *)
Definition other (q : peer) : Prop := p_id q <> p_id p.
Lemma other_closed : closed t other.
Proof.
  constructor; [constructor| | | | |]; unfold other.
  - intros q q' S Hq. rewrite (sm_id _ _ S). exact Hq.
  - intros q d Hq _ _. unsched. exact Hq.
  - intros q r k Hq _. unsched. exact Hq.
  - intros q d Hq _ _. unsched. exact Hq.
  - intros q s Hq _ _. unsched. exact Hq.
  - intros q s Hq _ _ _. exact Hq.
  - intros q q' Hq (R & _). rewrite (rd_id _ _ _ R). exact Hq.
Qed.
Lemma other_tasked : tasked t other other other.
Proof. constructor; try (apply (k_base _ _ other_closed)); unfold other; trivial. Qed.
Lemma fate_task : forall P pid, tri t (at_pid pid other (fate C)) (handle_task P pid) (fun _ => fate C).
Proof.
  intros P pid. apply (tri_handle_task t P pid (fate C) other other other fate_closed other_closed other_tasked).
  - intros q _ Hq. exact Hq.
  - intros q Hq Hi. unsched. contradiction.
  - intros q q' Hq (R & _) Hi. rewrite (rd_id _ _ _ R) in Hi. contradiction.
Qed.

Lemma fate_handle : forall P e n x n', handle P e n = Ok (x, n') -> every t (fate C) n -> e <> EvTask (p_id p) ->
  ((exists k l, e = EvResolved k l) -> (forall q i l, C q -> C (set_remote i (set_r_addrs l) q)) /\
     forall q d, C q -> p_state q = Resolving -> 0 <= d < 3000 -> C (sched (set_p_next_hs (Some (t + d)) (set_p_state Handshaking q)))) ->
  every t (fate C) n'.
Proof.
  intros P e n x n' H E Hne Hr.
  refine (tin_handle t P (fate C) fate_closed fate_new fate_conf (fun _ => other) e _ _ (fun pid _ => fate_task P pid) n x n' H E _).
  - intros Hx q i l F Hi. destruct (F Hi) as [X | [X | X]].
    + left. destruct X as [X | [X | X]]; [left; exact X | right; left; exact X | right; right; apply set_remote_nil; exact X].
    + right. left. destruct X as (X1 & X2). split; [|exact X2]. unfold position in *. change (p_next_remote (set_remote i (set_r_addrs l) q)) with (p_next_remote q).
      destruct (p_next_remote q) as [j|]; [|discriminate]. rewrite nth_set_remote. destruct (Nat.eqb j i) eqn:Ej; [|exact X1]. apply Nat.eqb_eq in Ej. subst j.
      destruct (nth_error (p_remotes q) i); [|discriminate]. injection X1 as -> _. reflexivity.
    + right. right. apply (proj1 (Hr Hx)). exact X.
  - intros Hx q d F Hs Hd Hi. destruct (sched_is (set_p_next_hs (Some (t + d)) (set_p_state Handshaking q))) as [tk Et].
    assert (Hi' : p_id q = p_id p) by (rewrite Et in Hi; exact Hi). destruct (F Hi') as [X | [X | X]].
    + rewrite Et. left. destruct X as [X | [X | X]]; [congruence | unfold is_established in X; rewrite Hs in X; discriminate | right; right; exact X].
    + rewrite Et. right. left. destruct X as (X1 & _). split; [exact X1|]. exists d. split; [reflexivity|]. split; [lia|]. left. split; [reflexivity | lia].
    + right. right. apply (proj2 (Hr Hx)); assumption.
  - intros pid q He Hq Hi _. unfold other. congruence.
Qed.
End Keep.

Lemma kept_not : forall P n dt ev n' p h p', reachable P n -> In p (n_peers n) -> wanted p -> p_next_hs p = Some h -> handles P n dt ev n' ->
  (ev = EvTask (p_id p) -> n_now n' < h) -> In p' (n_peers n') -> p_id p' = p_id p -> wanted p' ->
  kept h p p' \/ anew (n_now n') p' \/ ((exists k l, ev = EvResolved k l) /\ resolved (n_now n') h p p').
Proof.
  intros P n dt ev n' p h p' R Hp W Hh H Hd Hp' Hi' (W1' & W2' & W3'). pose proof (reachable_inv _ _ R) as Inv. pose proof (wf_ids _ (i_wf _ _ (i_0 _ _ Inv))) as I.
  pose proof (handles_steps _ _ _ _ _ H Inv) as (_ & To). pose proof (proj2 To) as Inv'.
  assert (Ha' : actp p'). { apply (i_alive _ _ Inv' (p_id p') p'); [|exact W1']. apply in_find; [apply (i_wf _ _ (i_0 _ _ Inv')) | exact Hp']. }
  assert (Hnow : n_now n' = n_now n + Z.of_N dt) by exact (now_steps _ _ _ _ _ (proj1 (proj1 To))).
  assert (Hoff : ~ off p') by (intros [X | [X | X]]; [exact (Ha' X) | congruence | exact (W3' X)]).
  assert (Hother : forall C : peer -> Prop, C p -> (forall q q', same q q' -> C q -> C q') -> (forall q c, C q -> C (set_p_conf c q)) -> (forall q, C q -> p_next_hs q <> None) -> ev <> EvTask (p_id p) ->
    ((exists k l, ev = EvResolved k l) -> (forall q i l, C q -> C (set_remote i (set_r_addrs l) q)) /\
       forall q d, C q -> p_state q = Resolving -> 0 <= d < 3000 -> C (sched (set_p_next_hs (Some (n_now n' + d)) (set_p_state Handshaking q)))) -> anew (n_now n') p' \/ C p').
  { intros C Cp C1 C2 C3 Hne Hr. pose proof H as H0. unfold handles, step in H0. bind H0 as u m Hm. apply modn_ok in Hm. cbn [fst snd] in *.
    assert (E : every (n_now n') (fate (n_now n') p C) m).
    { subst m. split; [cbn [n_now set_n_now]; lia|]. split; [exact I|]. intros q Hq Hi. right. right. cbn [n_peers set_n_now] in Hq. rewrite (ids_inj n q p I Hq Hp Hi). exact Cp. }
    destruct (fate_handle (n_now n') p C C1 C2 C3 P ev m tt n' H0 E Hne Hr) as (_ & _ & E'). destruct (E' p' Hp' Hi') as [X | X]; [contradiction | exact X]. }
  assert (Hres : (exists k l, ev = EvResolved k l) \/ ~ exists k l, ev = EvResolved k l).
  { destruct ev; try (right; intros (k1 & l1 & X); discriminate). left. eexists _, _. reflexivity. }
  assert (Htask : ev = EvTask (p_id p) \/ ev <> EvTask (p_id p)).
  { destruct ev; try (right; discriminate). destruct (N.eq_dec pid (p_id p)) as [->|Hne]; [left; reflexivity | right; congruence]. }
  destruct Htask as [-> | Hne].
  - left. specialize (Hd eq_refl). destruct (task_enter _ _ _ _ _ R Hp W H) as (_ & _ & _ & X). pose proof (wf_ids _ (i_wf _ _ (i_0 _ _ Inv'))) as I'.
    destruct X as [(h' & tk & X1 & X2 & X3 & X4 & X5) | (q & m & m2 & Em1 & Em2 & Em3 & Im & O & I2 & Hpath & X1 & X2 & X3 & X4 & X5 & H')].
    + rewrite X5 in Hp'. rewrite (ids_inj n p' p I Hp' Hp Hi'). split; [reflexivity|]. split; [reflexivity | exact Hh].
    + unfold rest in H'. bind H' as u3 m3 H6. rewrite (ph_hs _ _ Hpath), Hh in H6. cbn [otimed_out] in H6. unfold timed_out in H6. destruct (Z.leb_spec h (n_now m)) as [Hle|_]; [lia|].
      unfold when in H6. apply ret_ok in H6. destruct H6 as [_ ->]. unfold schedule_peer_task in H'. pose proof (own_wr _ _ _ _ _ _ _ _ O sched_keeps H') as O'.
      pose proof (own_find _ _ _ _ _ O') as Hf. apply find_id_in in Hf. destruct Hf as [Hf1 Hf2]. rewrite (ids_inj n' p' (sched q) I' Hp' Hf1) by congruence.
      destruct (sched_is q) as [tk ->]. split; [exact X1|]. split; [exact X2|]. change (p_next_hs q = Some h). rewrite (ph_hs _ _ Hpath). exact Hh.
  - destruct Hres as [Hr | Hr].
    + right. destruct (Hother (resolved (n_now n') h p)) as [X | X]; [| | | | exact Hne | | left; exact X | right; split; [exact Hr | exact X]].
      * split; [reflexivity | left; exact Hh].
      * intros q q' S. unfold resolved. rewrite (sm_next _ _ S), (sm_hs _ _ S). trivial.
      * intros q c X. exact X.
      * intros q (_ & [X | (d & X & _)]); congruence.
      * intros _. split; [intros q i l X; exact X|]. intros q d (X1 & _) _ Hd'. destruct (sched_is (set_p_next_hs (Some (n_now n' + d)) (set_p_state Handshaking q))) as [tk ->].
        split; [exact X1|]. right. exists d. split; [reflexivity | exact Hd'].
    + destruct (Hother (kept h p)) as [X | X]; [| | | | exact Hne | | right; left; exact X | left; exact X].
      * split; [reflexivity|]. split; [reflexivity | exact Hh].
      * intros q q' S. unfold kept. rewrite (sm_next _ _ S), (sm_hs _ _ S), (sm_remotes _ _ S). trivial.
      * intros q c X. exact X.
      * intros q (_ & _ & X). congruence.
      * intros X. contradiction (Hr X).
Qed.
