(** Peers that should be connected have a handshake scheduled *)
From Verif Require Import Base BufferModel NonceModel MethodModel HandshakeModel NodeModel NodeSpec NodeSteps NodeWf NodeInv NodeSafe NodeSafe2 NodeSafe4 NodeFun4 NodeProofs RetryHoare RetryHoare2 RetryHoare3.
From Coq Require Import Lia ZifyBool ZifyNat ZifyN Sorted.
Local Open Scope Z_scope.

(** the task of the peer is due no later than its next handshake, which is due soon *)
Definition sch (t : Z) (p : peer) : Prop := exists h tk, p_next_hs p = Some h /\ p_task p = Some tk /\ tk <= h <= t + 22500.
(** the same while the task is running *)
Definition sch' (t : Z) (p : peer) : Prop := exists h, p_next_hs p = Some h /\ h <= t + 22500 /\ forall tk, p_task p = Some tk -> tk <= h.
(** no handshake is due before the pause after the last one is over *)
Definition paused (p : peer) : Prop := exists h, p_next_hs p = Some h /\ p_lh_to p <= h.
Definition pause (p : peer) : Prop := actp p -> is_established p = false -> p_lh_addr p = None \/ (p_state p <> Resolving /\ paused p).
Record goodw (S : Z -> peer -> Prop) (Q : peer -> Prop) (t : Z) (p : peer) : Prop := mk_good {
  g_retry : actp p -> is_established p = false -> p_remotes p <> [] -> S t p;
  g_refr : refr p = true -> is_established p = true /\ clnd p = true /\ S t p;
  g_reset : is_dynamic p = false -> actp p -> is_established p = false -> p_reset_to p = None;
  g_lh : p_lh_to p <= t + 15000;
  g_pause : Q p
}.
Definition good := goodw sch pause.
Definition goodk (t : Z) (p : peer) : Prop := goodw sch' pause t p /\ is_enabled p = true /\ actp p.
Definition goodk1 (t : Z) (p : peer) : Prop := goodk t p /\ exists h, p_next_hs p = Some h /\ t + 15000 <= h.
Definition goodk2 (t : Z) (p : peer) : Prop := (goodw sch' paused t p /\ is_enabled p = true /\ actp p) /\ exists h, p_next_hs p = Some h /\ t + 15000 <= h.

Lemma sch_sched : forall t p d, d <= 22500 -> sch t (sched (set_p_next_hs (Some (t + d)) p)).
Proof.
  intros t p d Hd. destruct (sched_task (set_p_next_hs (Some (t + d)) p) (t + d) eq_refl) as (tk & E & Hle). destruct (sched_is (set_p_next_hs (Some (t + d)) p)) as [x Ex].
  exists (t + d), tk. split; [unsched; reflexivity|]. split; [exact E | lia].
Qed.
Lemma sch_sch' : forall t p, sch t p -> sch' t p.
Proof. intros t p (h & tk & A & B & C). exists h. split; [exact A|]. split; [lia|]. intros k E. rewrite B in E. injection E as <-. lia. Qed.


Section Weak.
Variables (W : Z -> peer -> Prop) (t : Z).
Hypothesis Wsch : forall p, sch t p -> W t p.
Hypothesis Weq : forall p p', p_next_hs p' = p_next_hs p -> p_task p' = p_task p -> W t p -> W t p'.

Lemma good_next' : forall p d, (refr p = true -> is_established p = true /\ clnd p = true) ->
  (is_dynamic p = false -> actp p -> is_established p = false -> p_reset_to p = None) -> p_lh_to p <= t + 15000 -> (actp p -> is_established p = false -> p_lh_addr p = None) ->
  d <= 22500 -> goodw W pause t (sched (set_p_next_hs (Some (t + d)) p)).
Proof.
  intros p d B C D E Hd. pose proof (Wsch _ (sch_sched t p d Hd)) as S. destruct (sched_is (set_p_next_hs (Some (t + d)) p)) as [x Ex]. rewrite Ex in *. constructor.
  - intros _ _ _. exact S.
  - intros Hr. destruct (B Hr) as (B1 & B2). split; [exact B1|]. split; [exact B2 | exact S].
  - exact C.
  - exact D.
  - intros Ha He. left. exact (E Ha He).
Qed.
Lemma good_next : forall p d, goodw W pause t p -> d <= 22500 -> is_established p = true \/ p_next_hs p = None -> goodw W pause t (sched (set_p_next_hs (Some (t + d)) p)).
Proof.
  intros p d [A B C D E] Hd Hn. apply good_next'; [|exact C | exact D | |exact Hd].
  - intros X. destruct (B X) as (X1 & X2 & _). split; assumption.
  - intros Ha He. destruct (E Ha He) as [X | (_ & h & X & _)]; [exact X|]. destruct Hn; congruence.
Qed.
Lemma same_pause : forall p p', same p p' -> pause p -> pause p'.
Proof.
  intros p p' S Hp Ha He. destruct (sm_lh _ _ S) as [E1 E2]. unfold actp, is_established, paused in *. rewrite (sm_state _ _ S) in *. rewrite E1, E2, (sm_hs _ _ S). exact (Hp Ha He).
Qed.
Lemma same_paused : forall p p', same p p' -> paused p -> paused p'.
Proof. intros p p' S. unfold paused. rewrite (sm_hs _ _ S), (proj1 (sm_lh _ _ S)). trivial. Qed.
Lemma good_same : forall (Q : peer -> Prop) p p', (Q p -> Q p') -> same p p' -> goodw W Q t p -> goodw W Q t p'.
Proof.
  intros Q p p' HQ [S1 S2 S3 S4 S5 S6 S7 S8 [S9 S9'] S10] [A B C D E].
  assert (Ee : is_established p' = is_established p) by (unfold is_established; rewrite S3; reflexivity). constructor.
  + intros Ha He Hr. unfold actp in *. rewrite S3 in Ha. rewrite S4 in Hr. rewrite Ee in He. apply (Weq p); [exact S7 | exact S6 | exact (A Ha He Hr)].
  + intros Hr. destruct S8 as [[E1 E2] | E1]; [|congruence]. rewrite E1 in Hr. destruct (B Hr) as (B1 & B2 & B3). rewrite Ee, E2. split; [exact B1|]. split; [exact B2|].
    apply (Weq p); [exact S7 | exact S6 | exact B3].
  + intros Hd Ha He. unfold actp, is_dynamic in *. rewrite S3 in Ha. rewrite S2 in Hd. rewrite Ee in He. destruct (S10 (C Hd Ha He)) as [X | X]; [exact X | congruence].
  + lia.
  + exact (HQ E).
Qed.
Lemma fresh_sch : forall p p', fresh t p p' -> actp p' -> p_remotes p' <> [] -> is_enabled p = true /\ is_established p' = false /\ sch t p'.
Proof.
  intros p p' (R & D1 & D2) Ha Hr. destruct (is_enabled p) eqn:E; [|exfalso; apply Ha; apply D1; reflexivity]. split; [reflexivity|]. specialize (D2 eq_refl).
  destruct (p_remotes p') as [|r l]; [contradiction|]. destruct D2 as (_ & d & tk & E1 & E2 & H1 & H2 & H3). split.
  - apply is_est_false. destruct (r_host r); destruct H3 as [X _]; congruence.
  - exists (t + d), tk. split; [exact E1|]. split; [exact E2|]. destruct (r_host r); lia.
Qed.
Lemma good_fresh : forall W' Q' p p', goodw W' Q' t p -> fresh t p p' -> goodw W pause t p'.
Proof.
  intros W' Q' p p' [A B C D E] Hf. pose proof (proj1 Hf) as [R1 R2 R3 R4 R5 R6 [R7 R7'] R8]. constructor.
  - intros Ha _ Hr. apply Wsch. apply (fresh_sch p p' Hf Ha Hr).
  - intros Hr. exfalso. destruct R8 as [X | [Y X]].
    + unfold refr in Hr. rewrite X in Hr. discriminate.
    + assert (Hr' : refr p = true) by (unfold refr in *; rewrite X in Hr; exact Hr). destruct (B Hr') as [X1 _]. apply is_est_true in X1. congruence.
  - intros Hd _ _. apply R6. unfold is_dynamic in *. rewrite <- R2. exact Hd.
  - lia.
  - intros _ _. left. exact R7'.
Qed.
Lemma good_closed : closed t (goodw W pause t).
Proof.
  constructor; [constructor|..].
  - intros p p' S. apply good_same; [exact (same_pause p p' S) | exact S].
  - intros p d G Hn Hd. apply good_next; [exact G | lia | right; exact Hn].
  - intros p r k [A B C D E] He. destruct (sched_is (set_p_keep_to k (set_p_reset_to r (set_p_state Established p)))) as [x ->]. constructor.
    + intros _ X. discriminate.
    + intros Hr. destruct (B Hr) as [X _]. congruence.
    + intros _ _ X. discriminate.
    + exact D.
    + intros _ X. discriminate.
  - intros p d G He Hd. apply good_next; [exact G | lia | left; exact He].
  - intros p s [A B C D E] He Hs. apply good_next'; [|exact C | exact D | |lia]; [intros _; split; [exact He | reflexivity]|].
    intros _ X. change (is_established p = false) in X. congruence.
  - intros p s [A B C D E] He Hs Hc. constructor.
    + intros _ X. change (is_established p = false) in X. congruence.
    + intros Hr. assert (Hr' : refr p = true) by (unfold refr in *; rewrite Hs; exact Hr). destruct (B Hr') as (_ & X & _). unfold clnd in X. rewrite Hs in X. congruence.
    + intros _ _ X. change (is_established p = false) in X. congruence.
    + exact D.
    + intros _ X. change (is_established p = false) in X. congruence.
  - intros p p' G Hf. exact (good_fresh W pause p p' G Hf).
Qed.
End Weak.

Lemma Weq_sch : forall t p p', p_next_hs p' = p_next_hs p -> p_task p' = p_task p -> sch t p -> sch t p'.
Proof. intros t p p' E1 E2 (h & tk & X). rewrite <- E1, <- E2 in X. exists h, tk. exact X. Qed.
Lemma Weq_sch' : forall t p p', p_next_hs p' = p_next_hs p -> p_task p' = p_task p -> sch' t p -> sch' t p'.
Proof. intros t p p' E1 E2 (h & X). rewrite <- E1, <- E2 in X. exists h. exact X. Qed.
Lemma good_is_closed : forall t, closed t (good t).
Proof. intros t. apply good_closed; [intros p X; exact X | apply Weq_sch]. Qed.
Lemma closed_and : forall t (G : peer -> Prop) (A : peer -> Prop), closed t G ->
  (forall p p', p_conf p' = p_conf p -> (p_state p' = p_state p \/ p_state p' = Established) -> A p -> A p') -> (forall p p', A p -> fresh t p p' -> A p') ->
  closed t (fun p => G p /\ A p).
Proof.
  intros t G A [[K1 K2] K3 K4 K5 K6 K7] HA HF.
  assert (HA' : forall p x, p_conf x = p_conf p -> p_state x = p_state p -> A p -> A x) by (intros p x E1 E2; apply HA; [exact E1 | left; exact E2]).
  constructor; [constructor|..].
  - intros p p' S [Hg Ha]. split; [exact (K1 _ _ S Hg)|]. revert Ha. apply HA'; [exact (sm_conf _ _ S) | exact (sm_state _ _ S)].
  - intros p d [Hg Ha] Hn Hd. split; [apply K2; assumption|]. revert Ha. apply HA'; unsched; reflexivity.
  - intros p r k [Hg Ha] He. split; [apply K3; assumption|]. revert Ha. apply HA; [unsched; reflexivity|]. right. unsched. reflexivity.
  - intros p d [Hg Ha] He Hd. split; [apply K4; assumption|]. revert Ha. apply HA'; unsched; reflexivity.
  - intros p s [Hg Ha] He Hs. split; [apply K5; assumption|]. revert Ha. apply HA'; unsched; reflexivity.
  - intros p s [Hg Ha] He Hs Hc. split; [apply K6; assumption|]. revert Ha. apply HA'; reflexivity.
  - intros p p' [Hg Ha] Hf. split; [exact (K7 _ _ Hg Hf) | exact (HF _ _ Ha Hf)].
Qed.
Lemma fresh_active : forall t p p', fresh t p p' -> is_enabled p = true -> is_enabled p' = true /\ actp p'.
Proof.
  intros t p p' (R & _ & D) He. specialize (D He). split; [unfold is_enabled in *; rewrite (rd_conf _ _ _ R); exact He|]. unfold actp.
  destruct (p_remotes p') as [|r l]; [congruence|]. destruct D as (_ & d & tk & _ & _ & _ & _ & X). destruct (r_host r); destruct X as [X _]; congruence.
Qed.
Lemma goodk_closed : forall t, closed t (goodk t).
Proof.
  intros t. apply closed_and.
  - apply good_closed; [intros p X; apply sch_sch'; exact X | apply Weq_sch'].
  - intros p p' E1 E2 [A B]. unfold is_enabled, actp in *. rewrite E1. split; [exact A|]. destruct E2 as [E2 | E2]; rewrite E2; [exact B | discriminate].
  - intros p p' [A B] Hf. exact (fresh_active t p p' Hf A).
Qed.
Lemma goodk_base2 : forall t (Q : peer -> Prop), (forall p p', same p p' -> Q p -> Q p') ->
  base t (fun p => (goodw sch' Q t p /\ is_enabled p = true /\ actp p) /\ exists h, p_next_hs p = Some h /\ t + 15000 <= h).
Proof.
  intros t Q HQ. constructor.
  - intros p p' S [[A [B C]] D]. split; [split; [revert A; apply good_same; [intros q Y; apply sch_sch'; exact Y | apply Weq_sch' | exact (HQ _ _ S) | exact S]|]|].
    + unfold is_enabled, actp in *. rewrite (sm_conf _ _ S), (sm_state _ _ S). split; assumption.
    + rewrite (sm_hs _ _ S). exact D.
  - intros p d [_ (h & X & _)] Hn. congruence.
Qed.
Lemma goodk_tasked : forall t, tasked t (goodk t) (goodk1 t) (goodk2 t).
Proof.
  intros t. constructor.
  - intros p d [[A B C D G] [E F]] Ho Hd. split; [|exists (t + d); split; [reflexivity | lia]]. split; [|split; assumption].
    assert (X : sch' t p -> sch' t (set_p_next_hs (Some (t + d)) p)).
    { intros (h & X1 & X2 & X3). exists (t + d). split; [reflexivity|]. split; [lia|]. intros tk Et. specialize (X3 tk Et). rewrite X1 in Ho. cbn in Ho. unfold timed_out in Ho. lia. }
    constructor; [intros; apply X; apply A; assumption | | exact C | exact D |].
    + intros Hr. destruct (B Hr) as (B1 & B2 & B3). split; [exact B1|]. split; [exact B2 | exact (X B3)].
    + intros Ha He. destruct (G Ha He) as [Y | (Y & _)]; [left; exact Y|]. right. split; [exact Y|]. exists (t + d). split; [reflexivity|]. cbn. lia.
  - apply goodk_base2. exact same_pause.
  - apply goodk_base2. exact same_paused.
  - intros p [A _]. exact A.
  - intros p [[[A B C D G] [E F]] (h & H1 & H2)]. split; [|exists h; split; assumption]. split; [|split; assumption]. constructor; try assumption. exists h. split; [exact H1 | lia].
  - intros p [[[A B C D G] [E F]] (h & H1 & H2)]. split; [|exists h; split; assumption]. split; [|split; assumption]. constructor; try assumption.
    + unfold MIN_HANDSHAKE_INTERVAL. cbn. lia.
    + exists h. split; [exact H1|]. unfold MIN_HANDSHAKE_INTERVAL. cbn. lia.
  - intros p [[[A B C D G] [E F]] (h & H1 & H2)] He. split; [|split; assumption]. constructor; try assumption. intros _ X. congruence.
  - intros p [[[A B C D G] [E F]] (h & H1 & H2)] He. split; [|split; [exact E | discriminate]]. constructor.
    + intros _ _ Hr. exact (A F He Hr).
    + intros Hr. destruct (B Hr) as [X _]. congruence.
    + intros Hd _ _. exact (C Hd F He).
    + exact D.
    + intros _ _. right. split; [discriminate | exact G].
  - intros p i f [[A B C D G] [E F]] Hf. split; [|split; assumption]. constructor; [|exact B | exact C | exact D | exact G]. intros Ha He Hr. apply A; [exact Ha | exact He|]. intros X. apply Hr. apply set_remote_nil. exact X.
  - intros p i [[A B C D G] [E F]]. split; [|split; assumption]. constructor; assumption.
  - intros p k [[A B C D G] [E F]]. split; [|split; assumption]. constructor; assumption.
Qed.
Lemma good_in : forall t p, good t p -> is_enabled p = true /\ actp p -> goodk t (set_p_task None p).
Proof.
  intros t p [A B C D G] [E F]. assert (X : sch t p -> sch' t (set_p_task None p)) by (intros (h & tk & X1 & X2 & X3); exists h; split; [exact X1|]; split; [lia | discriminate]).
  split; [|split; assumption]. constructor; [intros; apply X; apply A; assumption | | exact C | exact D | exact G]. intros Hr. destruct (B Hr) as (B1 & B2 & B3). split; [exact B1|]. split; [exact B2 | exact (X B3)].
Qed.
Lemma good_out : forall t p, goodk t p -> good t (sched p).
Proof.
  intros t p [[A B C D G] _]. assert (X : sch' t p -> sch t (sched p)).
  { intros (h & X1 & X2 & X3). destruct (sched_task p h X1) as (tk & Y1 & Y2). exists h, tk. split; [unsched; exact X1|]. split; [exact Y1 | lia]. }
  destruct (sched_is p) as [x Ex]. rewrite Ex in *. constructor; [intros Ha He Hr; apply X; apply A; assumption | | exact C | exact D | exact G]. intros Hr. destruct (B Hr) as (B1 & B2 & B3). split; [exact B1|]. split; [exact B2 | exact (X B3)].
Qed.
Lemma good_new : forall t id c st serial, t >= 0 -> good t (new_peer id c st serial).
Proof.
  intros t id c st serial Ht. constructor.
  - intros X. exfalso. apply X. reflexivity.
  - discriminate.
  - intros _ X. exfalso. apply X. reflexivity.
  - cbn. lia.
  - intros X. exfalso. apply X. reflexivity.
Qed.
Lemma good_conf : forall t p c, good t p -> is_dynamic p = false -> c <> CDynamic -> good t (set_p_conf c p).
Proof. intros t p c [A B C D G] Hd Hc. constructor; try assumption. intros _ Ha He. exact (C Hd Ha He). Qed.
Lemma good_resolved : forall t p i l, good t p -> good t (set_remote i (set_r_addrs l) p).
Proof. intros t p i l [A B C D G]. constructor; try assumption. intros Ha He Hr. apply (Weq_sch t p); [reflexivity | reflexivity|]. apply A; [exact Ha | exact He|]. intros X. apply Hr. apply set_remote_nil. exact X. Qed.
Lemma good_init : forall t p d, good t p -> p_state p = Resolving -> 0 <= d < 3000 -> good t (sched (set_p_next_hs (Some (t + d)) (set_p_state Handshaking p))).
Proof.
  intros t p d [A B C D G] Hs Hd. apply good_next'; [intros q X; exact X | | | exact D | | lia].
  - intros Hr. destruct (B Hr) as [X _]. apply is_est_true in X. congruence.
  - intros Hy _ _. apply C; [exact Hy | unfold actp; congruence | apply is_est_false; congruence].
  - intros _ _. destruct G as [X | [X _]]; [unfold actp; congruence | apply is_est_false; congruence | exact X | contradiction].
Qed.
Lemma good_tick : forall t t' p, t <= t' -> good t p -> good t' p.
Proof.
  intros t t' p Ht [A B C D G]. assert (X : sch t p -> sch t' p) by (intros (h & tk & X1 & X2 & X3); exists h, tk; split; [exact X1|]; split; [exact X2 | lia]).
  constructor; [intros; apply X; apply A; assumption | | exact C | lia | exact G]. intros Hr. destruct (B Hr) as (B1 & B2 & B3). split; [exact B1|]. split; [exact B2 | exact (X B3)].
Qed.

Definition goods (n : node) : Prop := 0 <= n_now n /\ forall p, In p (n_peers n) -> good (n_now n) p.
Lemma goods_handle : forall P n dt e n', handles P n dt e n' -> inv P n -> goods n -> goods n'.
Proof.
  intros P n dt e n' H I [H0 G]. unfold handles, step in H. apply bnd_ok in H. destruct H as (u & m & Hm & H). apply modn_ok in Hm. cbn [fst snd] in *.
  pose (t := n_now n + Z.of_N dt). pose proof (wf_ids _ (i_wf _ _ (i_0 _ _ I))) as Hi.
  assert (E : every t (good t) m).
  { subst m. split; [reflexivity|]. split; [exact Hi|]. intros p Hp. apply (good_tick (n_now n)); [lia | exact (G p Hp)]. }
  assert (E' : every t (good t) n').
  { refine (tin_handle t P (good t) (good_is_closed t) _ (good_conf t) (fun _ p => is_enabled p = true /\ actp p) e (fun _ => good_resolved t) (fun _ => good_init t) _ m tt n' H E _).
    - intros id c st serial. apply good_new. lia.
    - intros pid _. apply (tri_handle_task t P pid (good t) (goodk t) (goodk1 t) (goodk2 t) (good_is_closed t) (goodk_closed t) (goodk_tasked t)).
      + intros p. apply good_in.
      + apply good_out.
      + intros p p' [Gk _] Hf. eapply (good_fresh sch); [intros q X; exact X | apply Weq_sch | exact Gk | exact Hf].
    - intros pid p _ Hp Hpi Ht. subst m. cbn [n_peers set_n_now] in Hp. pose proof (i_pinv _ _ (i_0 _ _ I) p Hp) as [Pc _ _ _ _].
      assert (Ha : actp p). { intros X. destruct (Pc X) as (_ & _ & X1 & _). rewrite X1 in Ht. discriminate. }
      split; [|exact Ha]. apply (i_alive _ _ I (p_id p) p); [|exact Ha]. apply (in_find n); [exact Hi | exact Hp]. }
  destruct E' as (E1 & _ & E3). split; [rewrite E1; unfold t; lia|]. rewrite E1. exact E3.
Qed.

Lemma goods_start : forall P now orc static dirs n x, start P static dirs (empty_node (Z.of_N now) orc) = Ok (x, n) -> goods n.
Proof.
  intros P now orc static dirs n x H. pose (t := Z.of_N now).
  assert (E : every t (good t) (empty_node t orc)).
  { split; [reflexivity|]. split; [apply (wf_ids _ (i_wf _ _ (empty_inv P t orc)))|]. intros p []. }
  assert (Hnew : forall id c st serial, good t (new_peer id c st serial)) by (intros; apply good_new; lia).
  assert (T : tin t (good t) (start P static dirs)).
  { unfold start. apply tri_then.
    - apply tin_each. intros c. apply tri_then; [apply tin_peer_add; [exact Hnew | apply good_conf]|].
      intros [| |id]; [apply tri_fatal | apply tri_ret; trivial | apply tri_ret; trivial].
    - intros _. apply tri_then; [apply tin_configure_peers | intros _; apply tin_load_peer_dirs]; try apply good_is_closed; try apply good_conf; try exact Hnew. }
  destruct (T _ _ _ H E) as (E1 & _ & E3). split; [rewrite E1; unfold t; lia|]. rewrite E1. exact E3.
Qed.
Lemma goods_run : forall P evs n x n', run P evs n = Ok (x, n') -> inv P n -> goods n -> goods n'.
Proof.
  intros P evs. induction evs as [|[dt e] evs IH]; intros n x n' H I G; cbn [run each] in H.
  - apply ret_ok in H. destruct H as [_ ->]. exact G.
  - unfold run in *. cbn [each] in H. apply bnd_ok in H. destruct H as ([] & m & H1 & H). assert (Hh : handles P n dt e m) by exact H1.
    apply (IH m x n' H); [exact (proj2 (proj2 (handles_steps _ _ _ _ _ Hh I))) | exact (goods_handle P n dt e m Hh I G)].
Qed.
Lemma reachable_goods : forall P n, reachable P n -> goods n.
Proof.
  intros P n (now & orc & static & dirs & evs & H). unfold execute in H.
  destruct ((start P static dirs;; run P evs) (empty_node (Z.of_N now) orc)) as [[x n1]| | |] eqn:E; try discriminate. injection H as <-.
  apply bnd_ok in E. destruct E as (u & m & H1 & H2). apply (goods_run P evs m x n1 H2); [|exact (goods_start _ _ _ _ _ _ _ H1)].
  apply (reachable_inv P m). exists now, orc, static, dirs, []. unfold execute, bnd. rewrite H1. reflexivity.
Qed.
