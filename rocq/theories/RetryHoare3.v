(** What the functions of the node model do to the timers of peers, part 3: the task of
    a peer, resolver results, and whole steps *)
From Verif Require Import Base BufferModel NonceModel MethodModel HandshakeModel NodeModel NodeSteps NodeWf NodeSafe NodeSafe2 NodeSafe4 NodeKeep RetryHoare RetryHoare2.
From Coq Require Import Lia ZifyBool ZifyNat ZifyN Sorted.
Local Open Scope Z_scope.

Section Task.
Variables (t : Z) (P : params) (pid : N) (G I : peer -> Prop).

(** [I] holds for the peer whose task runs, [G] for all others *)
Definition joined (O : peer -> Prop) (p : peer) : Prop := (p_id p <> pid -> G p) /\ (p_id p = pid -> O p).
Definition joint : peer -> Prop := joined I.
Lemma joint_map : forall (O O' : peer -> Prop) p p', p_id p' = p_id p -> (G p -> G p') -> (O p -> O' p') -> joined O p -> joined O' p'.
Proof. intros O O' p p' E A B [H1 H2]. split; intros X; rewrite E in X; [apply A; exact (H1 X) | apply B; exact (H2 X)]. Qed.
Lemma joint_base : forall O, base t G -> base t O -> base t (joined O).
Proof.
  intros O [A1 A2] [B1 B2]. constructor.
  - intros p p' S. apply joint_map; [exact (sm_id _ _ S) | exact (A1 _ _ S) | exact (B1 _ _ S)].
  - intros p d J Hn Hd. revert J. apply joint_map; [unsched; reflexivity | intros X; apply A2; assumption | intros X; apply B2; assumption].
Qed.
Lemma joint_closed : closed t G -> closed t I -> closed t joint.
Proof.
  intros [[A1 A2] B1 C1 D1 E1 F1] [[A3 A4] B2 C2 D2 E2 F2]. constructor; [constructor|..].
  - intros p p' S. apply joint_map; [exact (sm_id _ _ S) | exact (A1 _ _ S) | exact (A3 _ _ S)].
  - intros p d J Hn Hd. revert J. apply joint_map; [unsched; reflexivity | intros X; apply A2; assumption | intros X; apply A4; assumption].
  - intros p r k J He. revert J. apply joint_map; [unsched; reflexivity | intros X; apply B1; assumption | intros X; apply B2; assumption].
  - intros p d J He Hd. revert J. apply joint_map; [unsched; reflexivity | intros X; apply C1; assumption | intros X; apply C2; assumption].
  - intros p s J He Hs. revert J. apply joint_map; [unsched; reflexivity | intros X; apply D1; assumption | intros X; apply D2; assumption].
  - intros p s J He Hs Hc. revert J. apply joint_map; [reflexivity | intros X; apply E1; assumption | intros X; apply E2; assumption].
  - intros p p' J Hf. revert J. apply joint_map; [exact (rd_id _ _ _ (proj1 Hf)) | intros X; exact (F1 _ _ X Hf) | intros X; exact (F2 _ _ X Hf)].
Qed.

(** what the task of a peer itself does: [I] holds before, [I1] once the next handshake
    is set, [I2] once one was sent *)
Variables I1 I2 : peer -> Prop.
Record tasked : Prop := mk_tasked {
  tk_next : forall p d, I p -> otimed_out t (p_next_hs p) = true -> 17500 <= d < 22500 -> I1 (set_p_next_hs (Some (t + d)) p);
  tk_base1 : base t I1;
  tk_base2 : base t I2;
  tk_end : forall p, I1 p -> I p;
  tk_12 : forall p, I1 p -> I2 p;
  tk_lh : forall p, I1 p -> I2 (set_p_lh_to (t + MIN_HANDSHAKE_INTERVAL) (set_p_lh_addr (p_addr p) p));
  tk_est : forall p, I2 p -> is_established p = true -> I p;
  tk_state : forall p, I2 p -> is_established p = false -> I (set_p_state Handshaking p);
  tk_remote : forall p i f, I p -> (forall r, pstatic (f r) = pstatic r) -> I (set_remote i f p);
  tk_position : forall p i, I p -> I (set_p_next_remote i p);
  tk_keep : forall p k, I p -> I (set_p_keep_to k p)
}.
Hypothesis KG : closed t G.
Hypothesis KI : closed t I.
Hypothesis KT : tasked.
Let KJ : closed t joint := joint_closed KG KI.
Let BJ : base t joint := k_base _ _ KJ.

Lemma joint_own : forall f, keeps_id f -> (forall p, I p -> p_id p = pid -> I (f p)) -> tin t joint (wr pid f).
Proof.
  intros f Hf H. apply tri_wr; [exact Hf | |]; intros p [Ha Hb] Hi; [|split; [exact Ha | exact Hb]].
  split; [intros X; exfalso; apply X; rewrite Hf; exact Hi|]. intros _. exact (H p (Hb Hi) Hi).
Qed.
Lemma tin_task_next : tin t joint (task_handshake_next P pid).
Proof.
  unfold task_handshake_next. apply tri_then.
  { apply joint_own; [intros p; destruct (p_next_remote p) as [i|]; [destruct (Nat.ltb _ _)|]; reflexivity|]. intros p Hp _.
    destruct (p_next_remote p) as [i|]; [destruct (Nat.ltb _ _); [exact Hp|]|]; apply (tk_position KT); exact Hp. }
  intros _. apply tri_rd'. intros p Hp Hi. destruct (p_next_remote p) as [i|]; [|apply tri_undef].
  apply tri_rd_remote. intros p1 r Hp1 Hi1 Hr. apply tri_pre with (F := joint); [intros q [Hq _]; exact Hq|].
  apply tri_then; [apply joint_own; [intros q; reflexivity | intros q Hq _; apply (tk_remote KT); [exact Hq | intros x; reflexivity]]|]. intros _.
  destruct (r_host r) as [h|]; [|apply tri_ret; trivial]. apply tin_resolve. intros q x [Ha Hb] Hqi. split; [intros X; exfalso; apply X; exact Hqi|]. intros _.
  apply (tk_remote KT); [exact (Hb Hqi) | intros y; reflexivity].
Qed.
(** claiming an address without force resets nobody *)
Definition unest (p : peer) : Prop := is_established p = false.
Lemma tri_claim_soft : forall J a, base t J -> tri t (at_pid pid unest J) (claim_address P pid None None a false) (fun _ => J).
Proof.
  intros J a Bj. unfold claim_address. apply tri_peers. intros l Hu Hl.
  assert (Hrest : tin t J (wr pid (set_p_addr (Some a)) ;; ret tt ;; ret tt ;; ret true)).
  { apply tri_then; [apply tin_wr_same; [exact Bj | intros q; sm]|]. intros _. apply tri_then; [apply tri_ret; trivial|]. intros _. apply tri_then; [apply tri_ret; trivial|]. intros _. apply tri_ret. trivial. }
  assert (Ha : forall x, tri t (at_pid x unest J) (reset_peer_address P x) (fun _ => J)).
  { intros x. unfold reset_peer_address. apply tri_rd'. intros p [_ Hp] Hi. rewrite (Hp Hi). eapply tri_pre; [|apply tin_wr_same; [exact Bj | intros q; sm]]. intros q [Hq _]. exact Hq. }
  destruct (claim_scan l pid a false) as [| |e] eqn:Ec.
  - eapply tri_pre; [|apply tri_then; [apply tri_ret; trivial | intros _; exact Hrest]]. intros q [[Hq _] _]. exact Hq.
  - apply tri_bnd with (F1 := fun _ => J); [|intros _; apply tri_ret; intros q Hq; exact Hq]. eapply tri_pre; [|apply Ha]. intros q [Hq _]. exact Hq.
  - apply tri_bnd with (F1 := fun _ => J); [|intros _; exact Hrest]. eapply tri_pre; [|apply Ha]. destruct (claim_scan_evict _ _ _ _ _ Ec) as (x & Hx & Hxi & _ & _ & Hxe).
    intros q [[Hq _] Hql]. split; [exact Hq|]. intros Hqi. assert (q = x) as -> by (apply (Hu x q Hx Hql); congruence). exact (Hxe eq_refl).
Qed.
Lemma joint_own2 : forall (O O' : peer -> Prop) f, keeps_id f -> (forall p, O p -> p_id p = pid -> O' (f p)) -> tri t (joined O) (wr pid f) (fun _ => joined O').
Proof.
  intros O O' f Hf H. apply tri_wr; [exact Hf | |]; intros p [Ha Hb] Hi; split; intros X; try contradiction; [exfalso; apply X; rewrite Hf; exact Hi | exact (H p (Hb Hi) Hi) | exact (Ha X)].
Qed.
Let BG : base t G := k_base _ _ KG.
Lemma tri_send_handshake : forall ri, tri t (joined I1) (send_handshake P pid ri) (fun _ => joined I2).
Proof.
  intros ri. pose proof (joint_base I1 BG (tk_base1 KT)) as B1. pose proof (joint_base I2 BG (tk_base2 KT)) as B2.
  assert (W : forall p, joined I1 p -> joined I2 p) by (intros p; apply joint_map; [reflexivity | trivial | apply (tk_12 KT)]).
  unfold send_handshake. apply tri_rd. intros p Hp Hi. apply tri_bnd with (F1 := fun _ => joined I1).
  { destruct (is_established p) eqn:Ee; cbn [negb]; [apply tri_ret; intros q [Hq _]; exact Hq|]. destruct ri as [i|]; [|apply tri_undef]. apply tri_rd_remote. intros p1 r Hp1 Hi1 Hr.
    apply tri_pre with (F := at_pid pid unest (joined I1)); [intros q [[Hq Hqp] _]; split; [exact Hq|]; intros Hqi; rewrite (Hqp Hqi); exact Ee|].
    destruct (r_addrs r) as [|a1 l1]; [apply tri_ret; intros q [Hq _]; exact Hq|]. destruct (nth_error (a1 :: l1) (r_cur r)) as [a0|]; [|apply tri_undef].
    apply tri_bnd with (F1 := fun _ => joined I1); [apply tri_claim_soft; exact B1|]. intros _. apply tri_then; [|intros _; apply tri_ret; trivial].
    apply tin_reset_socket'. exact B1. }
  intros [|]; cbn [negb]; [|apply tri_ret; exact W]. apply tri_rd'. intros p1 Hp1 Hi1. apply tri_now. destruct (p_sock p1) as [sk|]; [|apply tri_ret; exact W].
  destruct (p_addr p1) as [a|]; [|apply tri_ret; exact W]. destruct (_ && _)%bool; [apply tri_ret; exact W|].
  apply tri_bnd with (F1 := fun _ => joined I2); [apply (joint_own2 I1 I2); [intros q; reflexivity | intros q Hq _; apply (tk_lh KT); exact Hq]|]. intros _.
  apply tri_then; [apply tin_handshake_init; exact B2|]. intros _. apply tri_ret. trivial.
Qed.
Lemma tin_task_handshake : tri t (fun q => joint q /\ (p_id q = pid -> otimed_out t (p_next_hs q) = true)) (task_handshake P pid) (fun _ => joint).
Proof.
  unfold task_handshake, handshake_default_rand. apply tri_rand; [lia|]. intros d Hd.
  apply tri_bnd with (F1 := fun _ => joined I1).
  { apply tri_next_hs; intros q [[Ha Hb] Hc] Hi; [|split; [exact Ha | intros X; contradiction]]. split; [intros X; contradiction|]. intros _. apply (tk_next KT); [exact (Hb Hi) | exact (Hc Hi) | exact Hd]. }
  intros _. apply tri_rd'. intros p Hp Hi. apply tri_gets. intros l.
  assert (W : forall p, joined I1 p -> joint p) by (intros q; apply joint_map; [reflexivity | trivial | apply (tk_end KT)]).
  assert (Hpos : forall i : peer -> option nat, tin t joint (wr pid (fun p => set_p_next_remote (i p) p))).
  { intros i. apply joint_own; [intros q; reflexivity|]. intros q Hq _. apply (tk_position KT). exact Hq. }
  destruct (negb _); [eapply tri_pre; [exact W | apply (Hpos (fun _ => None))]|].
  assert (Hs : forall ri, tri t (joined I1) (send_handshake P pid ri ;;
        p <- rd pid ;;
        if is_established p then ret tt
        else
          wr pid (set_p_state Handshaking) ;;
          match ri with
          | None => undefined
          | Some i =>
              r <- rd_remote pid i ;;
              wr pid (set_remote i (set_r_cur (S (r_cur r)))) ;;
              if Nat.ltb (S (r_cur r)) (length (r_addrs r)) then ret tt
              else
                wr pid (fun p => set_p_next_remote (match p_next_remote p with Some i => Some (S i) | None => Some 0%nat end) p) ;;
                task_handshake_next P pid
          end) (fun _ => joint)).
  { intros ri. apply tri_bnd with (F1 := fun _ => joined I2); [apply tri_send_handshake|]. intros _. apply tri_rd. intros p1 Hp1 Hi1. destruct (is_established p1) eqn:E1.
    { apply tri_ret. intros q [[Ha Hb] Hqp]. split; [exact Ha|]. intros Hqi. apply (tk_est KT); [exact (Hb Hqi) | rewrite (Hqp Hqi); exact E1]. }
    apply tri_bnd with (F1 := fun _ => joint).
    { apply tri_wr; [intros q; reflexivity | |]; intros q [[Ha Hb] Hc] Hqi; [|split; [exact Ha | intros X; contradiction]]. split; [intros X; contradiction|]. intros _.
      apply (tk_state KT); [exact (Hb Hqi) | rewrite (Hc Hqi); exact E1]. }
    intros _. destruct ri as [i|]; [|apply tri_undef]. apply tri_rd_remote. intros p2 r Hp2 Hi2 Hr. apply tri_pre with (F := joint); [intros q [Hq _]; exact Hq|].
    apply tri_then; [apply joint_own; [intros q; reflexivity | intros q Hq _; apply (tk_remote KT); [exact Hq | intros x; reflexivity]]|]. intros _.
    destruct (Nat.ltb _ _); [apply tri_ret; trivial|]. apply tri_then; [apply (Hpos (fun p => match p_next_remote p with Some i => Some (S i) | None => Some 0%nat end))|]. intros _. apply tin_task_next. }
  destruct (p_next_remote p) as [i|]; [apply Hs|]. destruct (is_established p); [apply Hs | eapply tri_pre; [exact W | apply tin_task_next]].
Qed.

Variable X : peer -> Prop.
Hypothesis Hin : forall p, G p -> X p -> I (set_p_task None p).
Hypothesis Hsched : forall p, I p -> G (sched p).
Hypothesis Hfresh : forall p p', I p -> fresh t p p' -> G p'.
Lemma tri_handle_task : tri t (at_pid pid X G) (handle_task P pid) (fun _ => G).
Proof.
  unfold handle_task. apply tri_bnd with (F1 := fun _ => joint).
  { apply tri_wr; [intros p; reflexivity | |]; intros p [Hp Hx] Hi; split; intros Y; try contradiction; [apply Hin; [exact Hp | exact (Hx Hi)] | exact Hp]. }
  intros _. apply tri_rd'. intros p Hp Hi. apply tri_now. destruct (otimed_out t (p_reset_to p)).
  - destruct (is_dynamic p).
    + eapply tri_post; [apply tri_peer_delete|]. cbv beta. intros _ q [[Ha _] Hb]. exact (Ha Hb).
    + eapply tri_post; [apply tri_peer_reset|]. cbv beta. intros _ q [Ha Hb]. destruct (N.eq_dec (p_id q) pid) as [E|E]; [|exact (proj1 (Ha E) E)].
      destruct (Hb E) as (p0 & [_ Hp0] & Hi0 & Hf). exact (Hfresh _ _ (Hp0 Hi0) Hf).
  - apply tri_then.
    { apply tin_when. intros _. apply tri_then; [apply tin_protocol_send; exact KJ|]. intros _. unfold clear_keepalive. apply tri_now.
      apply joint_own; [intros q; reflexivity | intros q Hq _; apply (tk_keep KT); exact Hq]. }
    intros _. apply tri_rd. intros p1 Hp1 Hi1. apply tri_bnd with (F1 := fun _ => joint).
    { unfold when. destruct (otimed_out t (p_next_hs p1)) eqn:E; [|apply tri_ret; intros q [Hq _]; exact Hq].
      eapply tri_pre; [|apply tin_task_handshake]. intros q [Hq Hqp]. split; [exact Hq|]. intros Hqi. rewrite (Hqp Hqi). exact E. }
    intros _. apply tri_sched; intros q [Ha Hb] Hqi; [apply Hsched; exact (Hb Hqi) | exact (Ha Hqi)].
Qed.
End Task.

(** ** Whole steps *)
Section Step.
Variables (t : Z) (P : params) (G : peer -> Prop).
Hypothesis K : closed t G.
Let B : base t G := k_base _ _ K.
Hypothesis Hnew : forall id c st serial, G (new_peer id c st serial).
Hypothesis Hconf : forall p c, G p -> is_dynamic p = false -> c <> CDynamic -> G (set_p_conf c p).
Section Resolved.
Hypothesis Hresolved : forall p i l, G p -> G (set_remote i (set_r_addrs l) p).
Hypothesis Hinit : forall p d, G p -> p_state p = Resolving -> 0 <= d < 3000 -> G (sched (set_p_next_hs (Some (t + d)) (set_p_state Handshaking p))).

Lemma tri_init_handshake : forall pid, tri t (at_pid pid (fun p => p_state p = Resolving) G) (init_handshake P pid) (fun _ => G).
Proof.
  intros pid. unfold init_handshake. apply tri_rd'. intros p _ _.
  assert (Hd : forall d, 0 <= d < 3000 -> tri t (at_pid pid (fun p => p_state p = Resolving) G) (wr pid (set_p_state Handshaking) ;; schedule_handshake pid d) (fun _ => G)).
  { intros d Hd. apply tri_bnd with (F1 := fun _ q => (p_id q <> pid -> G q) /\ (p_id q = pid -> exists p, G p /\ p_state p = Resolving /\ q = set_p_state Handshaking p)).
    - apply tri_wr; [intros q; reflexivity | |]; intros q [Hq Hs] Hi; (split; intros Y; try contradiction); [exists q; split; [exact Hq|]; split; [exact (Hs Hi) | reflexivity] | exact Hq].
    - intros _. apply tri_schedule; intros q [Ha Hb] Hi; [|exact (Ha Hi)]. destruct (Hb Hi) as (p0 & Hp0 & Hs0 & ->). apply Hinit; assumption. }
  destruct (has_limits P p).
  - apply tri_rand; [lia|]. exact Hd.
  - intros n x n' Hm He. apply bnd_ok in Hm. destruct Hm as (d & m1 & Ha & Hb). apply ret_ok in Ha. destruct Ha as [Ed ->]. subst d. eapply (Hd 0); [lia | exact Hb | exact He].
Qed.
Lemma tin_resolve_return : forall pid i l, tin t G (resolve_return P pid i l).
Proof.
  intros pid i l. unfold resolve_return. apply tri_peers. intros pl Hu Hl. destruct (find_id pl pid) as [p|] eqn:Ef; [|apply tri_ret; intros q [Hq _]; exact Hq].
  apply find_id_in in Ef. destruct Ef as [Hp Hi]. destruct (negb _); [apply tri_ret; intros q [Hq _]; exact Hq|]. destruct (is_dynamic p); [apply tri_bug|].
  apply tri_pre with (F := at_pid pid (fun q => q = p) G). { intros q [Hq Hql]. split; [exact Hq|]. intros Hqi. apply (Hu p q Hp Hql). congruence. }
  apply tri_rd_remote. intros p1 r Hp1 Hi1 Hr. apply tri_bnd with (F1 := fun _ => at_pid pid (fun q => p_state q = p_state p) G).
  { apply tri_wr; [intros q; reflexivity | |]; intros q [[Hq Hqp] _] Hqi.
    - split; [apply Hresolved; exact Hq|]. intros _. rewrite (Hqp Hqi). reflexivity.
    - split; [exact Hq | intros Y; contradiction]. }
  intros _. destruct (p_state p) eqn:Es; try (apply tri_ret; intros q [Hq _]; exact Hq). apply tri_init_handshake.
Qed.

End Resolved.

(** what an event must satisfy for its effect on [G] *)
Variable X : N -> peer -> Prop.
Variable e : event.
Hypothesis Hresolved : (exists k l, e = EvResolved k l) -> forall p i l, G p -> G (set_remote i (set_r_addrs l) p).
Hypothesis Hinit : (exists k l, e = EvResolved k l) -> forall p d, G p -> p_state p = Resolving -> 0 <= d < 3000 -> G (sched (set_p_next_hs (Some (t + d)) (set_p_state Handshaking p))).
Hypothesis Htask : forall pid, e = EvTask pid -> tri t (at_pid pid (X pid) G) (handle_task P pid) (fun _ => G).
Lemma tin_handle : forall n x n', handle P e n = Ok (x, n') -> every t G n ->
  (forall pid p, e = EvTask pid -> In p (n_peers n) -> p_id p = pid -> otimed_out t (p_task p) = true -> X pid p) -> every t G n'.
Proof.
  intros n x n' H E Hx.
  assert (Hm : forall m : M unit, handle P e = m -> tin t G m -> every t G n') by (intros m Hm Ht; rewrite Hm in H; exact (Ht _ _ _ H E)).
  destruct e as [sk la ra d | o a b | pid | | k l | k ok | defs |]; cbn [handle] in H, Hm.
  - eapply Hm; [reflexivity|]. apply tri_gets. intros l. destruct sk; [apply tin_receive; assumption|]. apply tin_when. intros _. apply tin_receive; assumption.
  - eapply Hm; [reflexivity|]. apply tri_gets. intros l. destruct o as [o|]; [|apply tin_send_data; assumption]. destruct (find_id l o) as [p|]; [|apply tri_ret; trivial].
    apply tin_when. intros _. apply tin_send_data; assumption.
  - apply bnd_ok in H. destruct H as (l & m1 & H1 & H). apply gets_ok in H1. destruct H1 as [-> ->]. apply bnd_ok in H. destruct H as (z & m1 & H1 & H). apply gets_ok in H1. destruct H1 as [-> ->].
    destruct (find_id (n_peers n) pid) as [p|] eqn:Ef; [|apply ret_ok in H; destruct H as [_ ->]; exact E]. rewrite (proj1 E) in H. unfold when in H.
    destruct (otimed_out t (p_task p)) eqn:Et; [|apply ret_ok in H; destruct H as [_ ->]; exact E].
    eapply Htask; [reflexivity | exact H|]. destruct E as (E1 & E2 & E3). split; [exact E1|]. split; [exact E2|]. intros q Hq. split; [exact (E3 q Hq)|]. intros Hqi.
    apply find_id_in in Ef. destruct Ef as [Hp Hi]. assert (q = p) as -> by (apply (ids_inj n q p E2 Hq Hp); congruence). apply Hx; [reflexivity | exact Hp | exact Hi | exact Et].
  - eapply Hm; [reflexivity|]. unfold eth_cleanup. apply tin_modn. intros m. repeat split.
  - eapply Hm; [reflexivity|]. apply tri_gets. intros rl. destruct (nth_error rl k) as [[pid i]|]; [|apply tri_ret; trivial].
    apply tri_then; [apply tin_modn; intros m; repeat split|]. intros _. apply tin_resolve_return; [apply Hresolved | apply Hinit]; exists k, l; reflexivity.
  - eapply Hm; [reflexivity|]. apply tri_gets. intros vl. destruct (nth_error vl k) as [j|]; [|apply tri_ret; trivial].
    apply tri_then; [apply tin_modn; intros m; repeat split|]. intros _. apply tin_verify_return; assumption.
  - eapply Hm; [reflexivity|]. apply tin_load_peer_dirs; assumption.
  - eapply Hm; [reflexivity|]. apply tin_reset_all; assumption.
Qed.
End Step.
