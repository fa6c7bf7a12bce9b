(** What the functions of the node model do to the timers of peers, part 2: sending,
    receiving, handshakes, reloading *)
From Verif Require Import Base BufferModel NonceModel MethodModel HandshakeModel NodeModel NodeSteps NodeWf NodeSafe2 NodeSafe4 RetryHoare.
From Coq Require Import Lia ZifyBool ZifyNat ZifyN Sorted.
Local Open Scope Z_scope.

Definition refr (p : peer) : bool := match p_sess p with Some s => ss_refreshing s | None => false end.
Definition clnd (p : peer) : bool := match p_sess p with Some s => ss_cleaned s | None => true end.

(** nothing about the schedule of the peer changes *)
Record same (p p' : peer) : Prop := mk_same {
  sm_id : p_id p' = p_id p; sm_conf : p_conf p' = p_conf p; sm_state : p_state p' = p_state p; sm_remotes : p_remotes p' = p_remotes p;
  sm_next : p_next_remote p' = p_next_remote p; sm_task : p_task p' = p_task p; sm_hs : p_next_hs p' = p_next_hs p;
  sm_sess : (refr p' = refr p /\ clnd p' = clnd p) \/ refr p' = false;
  sm_lh : p_lh_to p' = p_lh_to p /\ p_lh_addr p' = p_lh_addr p;
  sm_reset : p_reset_to p = None -> p_reset_to p' = None \/ is_established p = true
}.
Ltac sm := constructor; try reflexivity; try (left; split; reflexivity); try (right; reflexivity); try (split; reflexivity); try (intros Er; left; cbn; rewrite ?Er; reflexivity).

Section Functions.
Variables (t : Z) (P : params).

(** predicates that hold whatever is sent *)
Record base (G : peer -> Prop) : Prop := mk_base {
  b_same : forall p p', same p p' -> G p -> G p';
  b_retry : forall p d, G p -> p_next_hs p = None -> 17500 <= d < 22500 -> G (sched (set_p_next_hs (Some (t + d)) p))
}.
Definition at_pid (pid : N) (K G : peer -> Prop) (p : peer) : Prop := G p /\ (p_id p = pid -> K p).
Definition est (p : peer) : Prop := is_established p = true.
Lemma base_est : forall G pid, base G -> base (at_pid pid est G).
Proof.
  intros G pid [A B]. constructor.
  - intros p p' S [Hg He]. split; [exact (A _ _ S Hg)|]. intros Hi. rewrite (sm_id _ _ S) in Hi. unfold est, is_established in *. rewrite (sm_state _ _ S). exact (He Hi).
  - intros p d [Hg He] Hn Hd. split; [exact (B p d Hg Hn Hd)|]. unsched. exact He.
Qed.

Lemma tin_wr_same : forall G pid f, base G -> (forall p, same p (f p)) -> tin t G (wr pid f).
Proof. intros G pid f B S. apply tri_wr; [intros p; apply (sm_id _ _ (S p)) | intros p Hp _; exact (b_same _ B _ _ (S p) Hp) | intros p Hp _; exact Hp]. Qed.

Lemma tin_send_packet : forall G sk dst pid o, base G -> tin t G (send_packet sk dst pid o).
Proof.
  intros G sk dst pid o B. unfold send_packet. destruct sk as [sk|]; [|apply tri_bug]. destruct dst as [a|]; [|apply tri_bug].
  apply tri_then; [apply tin_use_sock|]. intros _. apply tri_then; [apply tin_emit|]. intros _. apply tri_then; [apply tin_flip|]. intros retry.
  destruct pid as [pid|]; [|apply tri_ret; trivial]. apply tin_when. intros _. apply tri_rd. intros p Hp Hi. destruct (p_next_hs p) as [h|] eqn:E; [apply tri_ret; intros q [Hq _]; exact Hq|].
  unfold schedule_handshake_default, handshake_default_rand. apply tri_rand; [lia|]. intros d Hd. apply tri_schedule; intros q [Hq Hqp] Hqi; [|exact Hq].
  apply (b_retry _ B); [exact Hq | rewrite (Hqp Hqi); exact E | exact Hd].
Qed.
Lemma tin_maintenance : forall G, tin t G maintenance.
Proof. intros G. apply tin_modn. intros n. destruct (timed_out _ _); repeat split. Qed.
Lemma tin_handshake_init : forall G sk dst pid, base G -> tin t G (handshake_init sk dst pid).
Proof. intros G sk dst pid B. unfold handshake_init. apply tri_then; [apply tin_maintenance|]. intros _. apply tin_send_packet. exact B. Qed.

Lemma tin_session_send : forall G pid old, base G -> tin t G (session_send P pid old).
Proof.
  intros G pid old B. unfold session_send. apply tri_rd. intros p Hp Hi. destruct (if old then p_old p else p_sess p) as [s|] eqn:E; [|apply tri_undef].
  apply tri_then; [apply tin_flip|]. intros failed. apply tri_pre with (F := at_pid pid (fun q => q = p) G); [intros q [A C]; split; assumption|].
  destruct failed; [eapply tri_post; [apply tin_emit | intros _ q [A _]; exact A]|]. cbv zeta.
  apply tri_bnd with (F1 := fun _ => G).
  { apply tri_wr; [intros q; destruct old; reflexivity | |]; intros q [Hq Hqp] Hqi; [|exact Hq]. rewrite (Hqp Hqi). apply (b_same _ B p); [|exact Hp].
    destruct old; [sm|]. sm. left. unfold refr, clnd. cbn [p_sess set_p_sess]. rewrite E. split; reflexivity. }
  intros _. apply tri_then; [apply tin_send_packet; exact B|]. intros _. apply tin_when. intros _. unfold clear_keepalive. apply tri_now. apply tin_wr_same; [exact B|]. intros q. sm.
Qed.

Lemma tin_free_socket' : forall G pid, base G -> tin t G (free_socket pid).
Proof. intros G pid B. apply tri_free_socket. intros p s Hp _. apply (b_same _ B p); [sm | exact Hp]. Qed.
Lemma tin_reset_socket' : forall G pid, base G -> tin t G (reset_socket pid).
Proof.
  intros G pid B. unfold reset_socket. apply tri_rd'. intros p Hp Hi. destruct (p_addr p); [|apply tin_free_socket'; exact B]. destruct (negb _); [apply tri_ret; trivial|].
  apply tri_then; [apply tin_free_socket'; exact B|]. intros _. apply tri_then; [apply tin_flip|]. intros hd. apply tri_then; [apply tin_pop|]. intros x.
  destruct hd; [apply tin_wr_same; [exact B | intros q; sm]|]. destruct (N.eqb x 0); [apply tri_ret; trivial|]. apply tri_gets. intros i.
  apply tri_then; [apply tin_modn; intros n; repeat split|]. intros _. apply tin_wr_same; [exact B | intros q; sm].
Qed.

(** ** Predicates that hold whatever the node does *)
Record closed (G : peer -> Prop) : Prop := mk_closed {
  k_base : base G;
  k_est : forall p r k, G p -> is_established p = false -> G (sched (set_p_keep_to k (set_p_reset_to r (set_p_state Established p))));
  k_init : forall p d, G p -> is_established p = true -> 17500 <= d < 22500 -> G (sched (set_p_next_hs (Some (t + d)) p));
  k_refresh : forall p s, G p -> is_established p = true -> p_sess p = Some s -> G (sched (set_p_next_hs (Some (t + 0)) (set_p_sess (Some (set_ss_flags true true s)) p)));
  k_clean : forall p s, G p -> is_established p = true -> p_sess p = Some s -> ss_cleaned s = false ->
    G (set_p_next_hs None (set_p_sess (Some (set_ss_flags true (ss_refreshing s) s)) p));
  k_fresh : forall p p', G p -> fresh t p p' -> G p'
}.

Section Closed.
Variable G : peer -> Prop.
Hypothesis K : closed G.
Let B : base G := k_base _ K.

Lemma tin_peer_reset : forall pid, tin t G (peer_reset P pid).
Proof.
  intros pid. eapply tri_post; [apply tri_peer_reset|]. cbv beta. intros _ q [Ha Hb]. destruct (N.eq_dec (p_id q) pid) as [E|E]; [|exact (Ha E)].
  destruct (Hb E) as (p & Hp & _ & Hf). exact (k_fresh _ K _ _ Hp Hf).
Qed.
Lemma tin_peer_delete : forall pid, tin t G (peer_delete P pid).
Proof. intros pid. eapply tri_post; [apply tri_peer_delete|]. cbv beta. intros _ q [Hq _]. exact Hq. Qed.
Lemma tin_reset_address : forall pid, tin t G (reset_peer_address P pid).
Proof.
  intros pid. unfold reset_peer_address. apply tri_rd'. intros p Hp Hi. destruct (is_established p); [apply tin_peer_reset|]. apply tin_wr_same; [exact B|]. intros q. sm.
Qed.

(** established peers stay established as long as the session is valid *)
Lemma tri_check_session : forall pid, tri t (at_pid pid est G) (check_session P pid) (fun ok q => if ok then at_pid pid est G q else G q).
Proof.
  intros pid. unfold check_session. apply tri_rd'. intros p Hp Hi. apply tri_now. destruct (sess_valid t (p_sess p)); [apply tri_ret; trivial|].
  apply tri_bnd with (F1 := fun _ => G).
  - eapply tri_pre; [|apply tin_peer_reset]. intros q [Hq _]. exact Hq.
  - intros _. apply tri_ret. trivial.
Qed.
Lemma tin_check_refresh : forall pid, tin t (at_pid pid est G) (check_session_refresh pid).
Proof.
  intros pid. unfold check_session_refresh. apply tri_rd. intros p Hp Hi. apply tri_now. destruct (p_sess p) as [s|] eqn:E; [|apply tri_undef].
  unfold when. destruct (negb _ && _)%bool; [|apply tri_ret; intros q [Hq _]; exact Hq].
  apply tri_bnd with (F1 := fun _ q => (p_id q = pid -> q = set_p_sess (Some (set_ss_flags true true s)) p) /\ (p_id q <> pid -> at_pid pid est G q)).
  - apply tri_wr; [intros q; reflexivity | |]; intros q [Hq Hqp] Hqi.
    + split; [intros _; rewrite (Hqp Hqi); reflexivity | intros X; contradiction].
    + split; [intros X; contradiction | intros _; exact Hq].
  - intros _. apply tri_schedule; intros q [Ha Hb] Hqi; [|exact (Hb Hqi)]. rewrite (Ha Hqi). destruct Hp as [Hg He]. split.
    + exact (k_refresh _ K p s Hg (He Hi) E).
    + intros _. unsched. exact (He Hi).
Qed.
Lemma tin_protocol_send : forall pid, tin t G (protocol_send P pid).
Proof.
  intros pid. unfold protocol_send. apply tri_rd. intros p Hp Hi. destruct (is_established p) eqn:E; cbn [negb]; [|apply tri_ret; intros q [Hq _]; exact Hq].
  eapply tri_bnd; [eapply tri_pre; [|apply tri_check_session]|].
  { intros q [Hq Hqp]. split; [exact Hq|]. intros Hqi. rewrite (Hqp Hqi). exact E. }
  cbv beta. intros [|]; cbn [negb]; [|apply tri_ret; trivial].
  apply tri_then; [apply tin_check_refresh|]. intros _. apply tri_rd'. intros p1 Hp1 Hi1. apply tri_now. destruct (p_sess p1) as [s|]; [|apply tri_undef].
  eapply tri_post; [apply tin_session_send; apply base_est; exact B|]. intros _ q [Hq _]. exact Hq.
Qed.

Lemma tin_eth_add : forall pid a, tin t G (eth_add pid a).
Proof.
  intros pid a. unfold eth_add. apply tri_then.
  - destruct pid as [pid|]; [apply tri_rd'; intros p Hp Hi; apply tri_ret; trivial | apply tri_ret; trivial].
  - intros [|]; cbn [negb]; [|apply tri_bug]. apply tin_modn. intros n. repeat split.
Qed.
Lemma tin_send_all : forall src, tin t G (send_all P src).
Proof.
  intros src. unfold send_all. apply tri_gets. intros l. apply tin_each. intros pid. apply tri_rd'. intros p Hp Hi.
  destruct (_ || _)%bool; [apply tri_ret; trivial | apply tin_protocol_send].
Qed.
Lemma tin_send_data : forall a b c d, tin t G (send_data P a b c d).
Proof.
  intros src dest a b. unfold send_data. destruct dest as [d|]; [apply tin_protocol_send|]. destruct (c_tap P); [|apply tin_send_all].
  apply tri_then.
  { destruct src; [apply tri_ret; trivial|]. apply tin_when. intros _. apply tin_eth_add. }
  intros _. apply tri_gets. intros l. destruct (if is_unicast b then eth_find l b else None) as [e|]; [|apply tin_send_all].
  destruct (e_peer e) as [d|]; [|apply tri_ret; trivial]. destruct (match src with Some s => N.eqb s d | None => false end); [apply tri_ret; trivial | apply tin_protocol_send].
Qed.
Lemma tin_handle_receive : forall pid sid a b, tin t G (handle_receive P pid sid a b).
Proof.
  intros pid sid a b. unfold handle_receive. apply tri_rd'. intros p Hp Hi. destruct (negb (p_iface p)); [apply tri_ret; trivial|].
  apply tri_then; [apply tin_when; intros _; apply tin_eth_add|]. intros _. apply tri_then; [apply tin_emit|]. intros _. apply tin_when. intros _. apply tin_send_data.
Qed.

Lemma tin_handle_recv : forall pid nonce, tri t (at_pid pid est G) (handle_recv P pid nonce) (fun _ => G).
Proof.
  intros pid nonce. unfold handle_recv. eapply tri_bnd; [apply tri_check_session|]. cbv beta. intros [|]; cbn [negb]; [|apply tri_ret; trivial].
  apply tri_rd. intros p Hp Hi. apply tri_now. apply tri_then; [apply tin_flip|]. intros auth_old. apply tri_then; [apply tin_flip|]. intros auth_new.
  pose (F0 := fun q => at_pid pid est G q /\ (p_id q = pid -> q = p)).
  apply tri_bnd with (F1 := fun r q => match r with Some _ => at_pid pid est G q | None => F0 q end).
  { destruct (p_old p) as [o|] eqn:Eo; [|apply tri_ret; trivial]. destruct (m_valid t (ss_state o)); [|apply tri_ret; trivial].
    apply tri_lift. intros [[st fresh]|] _; [|apply tri_ret; trivial].
    apply tri_bnd with (F1 := fun _ => at_pid pid est G); [|intros _; apply tri_ret; trivial].
    eapply tri_pre with (F := at_pid pid est G); [intros q [Hq _]; exact Hq|]. apply tin_wr_same; [apply base_est; exact B|]. intros q. sm. }
  intros r. apply tri_bnd with (F1 := fun _ => at_pid pid est G).
  { destruct r as [x|]; [apply tri_ret; trivial|]. destruct (p_sess p) as [s|] eqn:Es; [|apply tri_undef].
    apply tri_lift. intros [[st fresh]|] _; [|apply tri_ret; intros q [Hq _]; exact Hq]. cbv zeta.
    destruct Hp as [Hg He]. pose (s' := set_ss_state st s). pose (p1 := set_p_old None (set_p_sess (Some s') p)).
    assert (G1 : G p1). { apply (b_same _ B p); [|exact Hg]. sm. left. unfold refr, clnd. cbn. rewrite Es. split; reflexivity. }
    assert (E1 : is_established p1 = true) by exact (He Hi).
    apply tri_bnd with (F1 := fun _ q => at_pid pid est G q /\ (p_id q = pid -> q = p1)).
    { apply tri_wr; [intros q; reflexivity | |]; intros q [Hq Hqp] Hqi.
      - rewrite (Hqp Hqi). split; [split; [exact G1 | intros _; exact E1] | intros _; reflexivity].
      - split; [exact Hq | intros X; contradiction]. }
    intros _. fold s'.
    apply tri_bnd with (F1 := fun _ => at_pid pid est G).
    { unfold when at 1. destruct (negb (ss_cleaned s')) eqn:Ec; [|apply tri_ret; intros q [Hq _]; exact Hq].
      apply tri_bnd with (F1 := fun _ => at_pid pid est G).
      - apply tri_wr; [intros q; reflexivity | |]; intros q [Hq Hqp] Hqi; [|exact Hq]. rewrite (Hqp Hqi). split; [|intros _; exact E1].
        apply (k_clean _ K p1 s' G1 E1); [reflexivity|]. destruct (ss_cleaned s'); [discriminate | reflexivity].
      - intros _. apply tin_when. intros _. apply tin_session_send. apply base_est. exact B. }
    intros _. apply tri_then; [apply tin_check_refresh|]. intros _. apply tri_ret. trivial. }
  intros [[sid fresh]|]; [|apply tri_ret; intros q [Hq _]; exact Hq].
  apply tri_then; [apply tin_emit|]. intros _. apply tri_bnd with (F1 := fun _ => G).
  { unfold peer_seen. apply tri_now. apply tri_wr; [intros q; reflexivity | |]; intros q [Hq He] Hqi; [|exact Hq].
    apply (b_same _ B q); [|exact Hq]. sm. intros _. right. exact (He Hqi). }
  intros _.
  apply tri_then; [apply tin_flip|]. intros hp. apply tri_then; [apply tin_pop|]. intros src. apply tri_then; [apply tin_pop|]. intros dst.
  apply tin_when. intros _. apply tin_handle_receive.
Qed.

(** ** Addresses and handshakes *)
Lemma tin_free_socket : forall pid, tin t G (free_socket pid).
Proof. intros pid. apply tin_free_socket'. exact B. Qed.
Lemma tin_reset_socket : forall pid, tin t G (reset_socket pid).
Proof. intros pid. apply tin_reset_socket'. exact B. Qed.
Lemma tin_claim : forall pid sk la a force, tin t G (claim_address P pid sk la a force).
Proof.
  intros pid sk la a force. unfold claim_address. apply tri_gets. intros l.
  assert (Hrest : tin t G (wr pid (set_p_addr (Some a)) ;;
      match sk with
      | Some (SBound k) =>
          p <- rd pid ;;
          match p_sock p with
          | Some (SBound k') => when (negb (N.eqb k k')) (free_socket pid ;; wr pid (set_p_sock (Some (SBound k))))
          | _ => free_socket pid ;; wr pid (set_p_sock (Some (SBound k)))
          end
      | Some sk => use_sock sk
      | None => ret tt
      end ;;
      match la with
      | Some la => wr pid (set_p_laddr (Some la))
      | None => ret tt
      end ;;
      ret true)).
  { apply tri_then; [apply tin_wr_same; [exact B | intros q; sm]|]. intros _. apply tri_then.
    - assert (Hs : forall k, tin t G (free_socket pid ;; wr pid (set_p_sock (Some (SBound k))))).
      { intros k. apply tri_then; [apply tin_free_socket|]. intros _. apply tin_wr_same; [exact B | intros q; sm]. }
      destruct sk as [[k|o k]|]; [|apply tin_use_sock|apply tri_ret; trivial]. apply tri_rd'. intros p Hp Hi. destruct (p_sock p) as [[k'|o k']|]; try apply Hs.
      apply tin_when. intros _. apply Hs.
    - intros _. apply tri_then; [destruct la; [apply tin_wr_same; [exact B | intros q; sm] | apply tri_ret; trivial]|]. intros _. apply tri_ret. trivial. }
  destruct (claim_scan l pid a force) as [| |q].
  - apply tri_then; [apply tri_ret; trivial|]. intros _. exact Hrest.
  - apply tri_then; [apply tin_reset_address|]. intros _. apply tri_ret. trivial.
  - apply tri_then; [apply tin_reset_address|]. intros _. exact Hrest.
Qed.

Lemma same_superseded : forall now m p, same p (superseded now m p).
Proof. intros now m p. unfold superseded. destruct (_ && _)%bool; cbv zeta; destruct (p_old _); try (destruct (bytes_eqb _ _)); sm. Qed.
Lemma tin_new_session : forall pid m i c hk salt sigma serial src, tin t G (new_session P pid m i c hk salt sigma serial src).
Proof.
  intros pid m i c hk salt sigma serial src. unfold new_session. apply tri_then; [apply tin_flip|]. intros [|]; [apply tri_ret; trivial|].
  apply tri_now. apply tri_then; [unfold rand; apply tri_then; [apply tin_pop | intros; apply tri_ret; trivial]|]. intros rnd. apply tri_gets. intros sid.
  apply tri_then; [apply tin_modn; intros n; repeat split|]. intros _. apply tri_rd'. intros p Hp Hi.
  apply tri_then; [unfold supersede_session; apply tri_now; apply tin_wr_same; [exact B | intros q; apply same_superseded]|]. intros _.
  apply tri_then; [apply tin_wr_same; [exact B | intros q; sm]|]. intros _. apply tri_then; [apply tin_emit|]. intros _. apply tri_ret. trivial.
Qed.
Lemma tri_set_established : forall pid, tri t G (set_established pid) (fun ok q => if ok then at_pid pid est G q else G q).
Proof.
  intros pid. unfold set_established. apply tri_rd. intros p Hp Hi.
  pose (F0 := fun q => G q /\ (p_id q = pid -> p_state q = p_state p)).
  apply tri_bnd with (F1 := fun _ => F0).
  { apply tri_pre with (F := F0); [intros q [Hq Hqp]; split; [exact Hq|]; intros X; rewrite (Hqp X); reflexivity|].
    destruct (p_iface p); [apply tri_ret; trivial|]. apply tri_then; [apply tin_flip|]. intros ok. apply tri_then; [|intros _; apply tri_ret; trivial].
    apply tin_when. intros _. apply tri_wr; [intros q; reflexivity | |]; intros q [Hq Hqs] Hqi; [|split; assumption]. split; [apply (b_same _ B q); [sm | exact Hq] | exact Hqs]. }
  intros [|]; cbn [negb]; [|apply tri_ret; intros q [Hq _]; exact Hq].
  destruct (is_established p) eqn:E; [apply tri_ret; intros q [Hq Hs]; split; [exact Hq|]; intros X; unfold est, is_established in *; rewrite (Hs X); exact E|].
  pose (F1 := fun q => (p_id q <> pid -> G q) /\ (p_id q = pid -> exists q0, G q0 /\ is_established q0 = false /\ q = set_p_state Established q0)).
  apply tri_bnd with (F1 := fun _ => F1).
  { apply tri_wr; [intros q; reflexivity | |]; intros q [Hq Hqs] Hqi.
    - split; [intros X; contradiction|]. intros _. exists q. split; [exact Hq|]. split; [unfold is_established in *; rewrite (Hqs Hqi); exact E | reflexivity].
    - split; [intros _; exact Hq | intros X; contradiction]. }
  intros _. unfold peer_seen, clear_keepalive.
  pose (F2 := fun q => (p_id q <> pid -> G q) /\ (p_id q = pid -> exists q0, G q0 /\ is_established q0 = false /\ q = set_p_reset_to (Some (t + PEER_STALE_TIME)) (set_p_state Established q0))).
  apply tri_bnd with (F1 := fun _ => F2).
  { apply tri_now. apply tri_wr; [intros q; reflexivity | |]; intros q [Hq Hqs] Hqi.
    - split; [intros X; contradiction|]. intros _. destruct (Hqs Hqi) as (q0 & A & C & ->). exists q0. repeat split; assumption.
    - split; [intros _; exact (Hq Hqi) | intros X; contradiction]. }
  intros _.
  pose (F3 := fun q => (p_id q <> pid -> G q) /\ (p_id q = pid -> exists q0, G q0 /\ is_established q0 = false /\
     q = set_p_keep_to (Some (t + KEEPALIVE_TIMEOUT)) (set_p_reset_to (Some (t + PEER_STALE_TIME)) (set_p_state Established q0)))).
  apply tri_bnd with (F1 := fun _ => F3).
  { apply tri_now. apply tri_wr; [intros q; reflexivity | |]; intros q [Hq Hqs] Hqi.
    - split; [intros X; contradiction|]. intros _. destruct (Hqs Hqi) as (q0 & A & C & ->). exists q0. repeat split; assumption.
    - split; [intros _; exact (Hq Hqi) | intros X; contradiction]. }
  intros _. apply tri_bnd with (F1 := fun _ => at_pid pid est G).
  { apply tri_sched; intros q [Hq Hqs] Hqi.
    - destruct (Hqs Hqi) as (q0 & A & C & ->). split; [apply (k_est _ K); assumption|]. intros _. unsched. reflexivity.
    - split; [exact (Hq Hqi) | intros X; contradiction]. }
  intros _. apply tri_then; [apply tin_emit|]. intros _. apply tri_ret. trivial.
Qed.
Lemma tin_establish : forall pid m sk la ra i c hk salt sigma serial, tin t G (establish P pid m sk la ra i c hk salt sigma serial).
Proof.
  intros pid m sk la ra i c hk salt sigma serial. unfold establish. apply tri_rd'. intros p Hp Hi. destruct (serial <=? p_serial p)%N; [apply tri_ret; trivial|].
  assert (Hrs : tin t G (peer_reset P pid ;; ret false)) by (apply tri_then; [apply tin_peer_reset | intros _; apply tri_ret; trivial]).
  apply tri_then; [apply tin_claim|]. intros [|]; cbn [negb]; [|exact Hrs].
  apply tri_then; [apply tin_new_session|]. intros [|]; cbn [negb]; [|exact Hrs].
  eapply tri_bnd; [apply tri_set_established|]. cbv beta. intros [|]; cbn [negb]; [|exact Hrs].
  apply tri_now. apply tri_then; [apply tin_wr_same; [apply base_est; exact B | intros q; sm]|]. intros _.
  apply tri_bnd with (F1 := fun _ => G); [|intros _; apply tri_ret; trivial].
  destruct i; [|eapply tri_pre; [|apply tin_session_send; exact B]; intros q [Hq _]; exact Hq].
  unfold schedule_handshake_default, handshake_default_rand. apply tri_rand; [lia|]. intros d Hd. apply tri_schedule; intros q [Hq He] Hqi; [|exact Hq].
  apply (k_init _ K); [exact Hq | exact (He Hqi) | exact Hd].
Qed.
Lemma tin_update_shared : forall pid serial hk, tin t G (update_shared P pid serial hk).
Proof.
  intros pid serial hk. unfold update_shared. apply tri_rd'. intros p Hp Hi. cbv zeta.
  assert (Hc : tin t G (match c_shared P false serial (p_key p) hk with None => ret None | Some (sigma, key) => wr pid (set_p_cache (Some (mk_hcache serial hk sigma key))) ;; ret (Some (mk_hcache serial hk sigma key)) end)).
  { destruct (c_shared P false serial (p_key p) hk) as [[sigma key]|]; [|apply tri_ret; trivial]. apply tri_then; [apply tin_wr_same; [exact B | intros q; sm]|]. intros _. apply tri_ret. trivial. }
  destruct (p_cache p) as [c|]; [|exact Hc]. destruct (_ && _)%bool; [apply tri_ret; trivial | exact Hc].
Qed.
Lemma tin_respond : forall sk ra pid hk, tin t G (respond_handshake P sk ra pid hk).
Proof.
  intros sk ra pid hk. unfold respond_handshake. apply tri_gets. intros cur. apply tri_then; [apply tin_update_shared|]. intros [c|]; [|apply tri_ret; trivial].
  apply tri_rd'. intros p Hp Hi. apply tin_send_packet. exact B.
Qed.
Lemma tin_finish : forall sk la ra pid serial hk mac tlv0 w, tin t G (finish_handshake P sk la ra pid serial hk mac tlv0 w).
Proof.
  intros sk la ra pid serial hk mac tlv0 w. unfold finish_handshake. apply tri_rd'. intros p Hp Hi. destruct (get_method_by_name_list _ _); [|apply tin_send_packet; exact B].
  destruct (c_shared _ _ _ _ _) as [[sigma key]|]; [|apply tri_ret; trivial]. destruct (negb _); [apply tri_ret; trivial|].
  apply tri_then; [apply tin_establish|]. intros ok. apply tin_when. intros _. apply tri_rd'. intros p1 Hp1 Hi1. apply tin_send_packet. exact B.
Qed.
Lemma tin_handle_finish : forall sk la ra pid serial hk mac tlv0 w, tin t G (handle_finish_handshake P sk la ra pid serial hk mac tlv0 w).
Proof.
  intros sk la ra pid serial hk mac tlv0 w. unfold handle_finish_handshake. apply tri_rd'. intros p Hp Hi. destruct (get_method_by_name _ _); [|apply tin_send_packet; exact B].
  apply tri_then; [apply tin_update_shared|]. intros [c|]; [|apply tri_ret; trivial]. destruct (negb _); [apply tri_ret; trivial|].
  apply tri_then; [apply tin_establish|]. intros ok. apply tin_wr_same; [exact B | intros q; sm].
Qed.

Lemma tin_verify : forall pid sk la ra hk fl, tin t G (verify_peer P pid sk la ra hk fl).
Proof.
  intros pid sk la ra hk fl. unfold verify_peer. destruct (c_verify P) as [sync|]; [|apply tri_bug].
  apply tri_then; [unfold set_verifying; apply tri_now; apply tin_wr_same; [exact B | intros q; sm]|]. intros _. apply tri_rd'. intros p Hp Hi. destruct sync.
  - apply tri_then; [apply tin_flip|]. intros ok. apply tri_then; [apply tin_emit|]. intros _.
    apply tri_then; [unfold set_verified; apply tri_now; cbv zeta; apply tin_wr_same; [exact B | intros q; sm]|]. intros _. apply tri_ret. trivial.
  - apply tri_then; [apply tin_flip|]. intros [|]; cbn [negb]; [|apply tri_ret; trivial]. apply tri_then; [apply tin_emit|]. intros _.
    apply tri_then; [apply tin_modn; intros n; repeat split|]. intros _. apply tri_ret. trivial.
Qed.
Lemma tin_dynamic : forall sk la ra pid hk w, tin t G (handle_dynamic P sk la ra pid hk w).
Proof.
  intros sk la ra pid hk w. unfold handle_dynamic. apply tri_rd'. intros p Hp Hi. apply tri_now. destruct (_ || _)%bool; [apply tri_ret; trivial|].
  apply tri_then; [apply tin_verify|]. intros [[|]|]; try (apply tri_ret; trivial; fail). apply tri_then; [apply tin_peer_delete|]. intros _. apply tri_ret. trivial.
Qed.
Lemma tin_verify_return : forall j ok, tin t G (verify_return P j ok).
Proof.
  intros j ok. unfold verify_return. apply tri_gets. intros l. destruct (find_id l (v_peer j)) as [p|]; [|apply tri_ret; trivial]. destruct (negb _); [apply tri_bug|].
  apply tri_then; [apply tin_emit|]. intros _. apply tri_then; [unfold set_verified; apply tri_now; cbv zeta; apply tin_wr_same; [exact B | intros q; sm]|]. intros _.
  destruct (negb ok); [apply tri_ret; trivial|]. apply tri_now. apply tri_then; [apply tin_wr_same; [exact B | intros q; sm]|]. intros _. apply tin_respond.
Qed.
Lemma tin_handshake_from : forall sk la ra pid w, tin t G (handshake_from P sk la ra pid w).
Proof.
  intros sk la ra pid w. unfold handshake_from. apply tri_rd'. intros p Hp Hi. destruct (match w_mtu w with Some m => _ | None => false end); [apply tin_send_packet; exact B|].
  destruct (w_sender_hk w) as [hk|]; [|apply tri_ret; trivial]. apply tri_gets. intros l. apply tri_now. destruct (negb _); [apply tri_ret; trivial|]. destruct (negb _); [apply tri_ret; trivial|].
  destruct (match w_recipient w with Some rk => _ | None => false end); [apply tri_ret; trivial|].
  apply tri_then; [destruct (is_dynamic p); [apply tin_dynamic | apply tri_ret; trivial]|]. intros [|]; cbn [negb]; [|apply tri_ret; trivial].
  destruct (N.eqb (w_type w) 1).
  - apply tri_rd'. intros p1 Hp1 Hi1. destruct (_ && _)%bool; [apply tri_ret; trivial|]. apply tri_then; [apply tin_wr_same; [exact B | intros q; sm]|]. intros _. apply tin_respond.
  - unfold handshake_reply. destruct (w_recipient w); [|apply tri_ret; trivial]. destruct (w_recipient_hk w) as [rh|]; [|apply tri_ret; trivial].
    destruct (w_mac w) as [[mac tlv0]|]; [|apply tri_ret; trivial]. apply tri_now. apply tri_gets. intros cur. apply tri_gets. intros prev.
    destruct (if key_matches P t cur rh then Some cur else if key_matches P t prev rh then Some prev else None) as [k|]; [|apply tri_ret; trivial].
    destruct (N.eqb (w_type w) 2); [apply tin_finish|]. destruct (N.eqb (w_type w) 3); [apply tin_handle_finish | apply tri_ret; trivial].
Qed.

(** ** New and changed peers *)
Lemma tin_insert : forall c st, (forall id serial, G (new_peer id c st serial)) -> tin t G (insert_peer c st).
Proof.
  intros c st Hn n x n' H (A & I & E). unfold insert_peer in H. apply bnd_ok in H. destruct H as (id & m1 & H1 & H). apply gets_ok in H1. destruct H1 as [-> ->].
  apply bnd_ok in H. destruct H as (u & m2 & H1 & H). apply modn_ok in H1. subst m2. apply ret_ok in H. destruct H as [_ ->]. split; [exact A|]. split.
  - unfold ids_ok. cbn [n_peers n_next_id set_n_next_id set_n_peers].
    destruct (ids_ok_insert n (new_peer (n_next_id n) c st (k_serial (n_cur n))) _ I eq_refl eq_refl) as [X Y]. split; [exact X | exact Y].
  - intros p Hp. cbn [n_peers set_n_next_id set_n_peers] in Hp. apply in_app_or in Hp. destruct Hp as [Hp | [<- | []]]; [exact (E p Hp) | apply Hn].
Qed.
Section Added.
Hypothesis Hnew : forall id c st serial, G (new_peer id c st serial).
Hypothesis Hconf : forall p c, G p -> is_dynamic p = false -> c <> CDynamic -> G (set_p_conf c p).
Definition stat (p : peer) : Prop := is_dynamic p = false.
Lemma tin_wr_conf : forall pid c, c <> CDynamic -> tin t (at_pid pid stat G) (wr pid (set_p_conf c)).
Proof.
  intros pid c Hc. apply tri_wr; [intros p; reflexivity | |]; intros p [Hp Hs] Hi; [|split; assumption]. split; [apply Hconf; [exact Hp | exact (Hs Hi) | exact Hc]|].
  intros _. unfold stat, is_dynamic. cbn. destruct c; try reflexivity. contradiction.
Qed.
Lemma find_key_in : forall l k p, find_peer_key l k = Some p -> In p l.
Proof. intros l k p H. unfold find_peer_key in H. apply find_some in H. exact (proj1 H). Qed.
Lemma tin_peer_add : forall c st, tin t G (peer_add P c st).
Proof.
  intros c st. unfold peer_add. apply tri_peers. intros l Hu Hl.
  assert (Hi : tin t G (id <- insert_peer c st ;; ret (AddNew id))) by (apply tri_then; [apply tin_insert; intros; apply Hnew | intros; apply tri_ret; trivial]).
  assert (Hd : forall o, tin t G (peer_delete P o ;; id <- insert_peer c st ;; ret (AddNew id))) by (intros o; apply tri_then; [apply tin_peer_delete | intros _; exact Hi]).
  assert (Hw : forall o s r, In o l -> is_dynamic o = false -> s <> CDynamic -> tri t (fun q => G q /\ In q l) (wr (p_id o) (set_p_conf s) ;; @ret added r) (fun _ => G)).
  { intros o s r Ho Hs Hc. apply tri_bnd with (F1 := fun _ => at_pid (p_id o) stat G); [|intros _; apply tri_ret; intros q [Hq _]; exact Hq].
    eapply tri_pre; [|apply tin_wr_conf; exact Hc]. intros q [Hq Hql]. split; [exact Hq|]. intros Hqi. rewrite (Hu o q Ho Hql Hqi). exact Hs. }
  assert (W : forall A (m : M A), tin t G m -> tri t (fun q => G q /\ In q l) m (fun _ => G)) by (intros A m Hm; eapply tri_pre; [|exact Hm]; intros q [Hq _]; exact Hq).
  destruct (find_peer_key l (pc_key c)) as [o|] eqn:Ef; [|apply W; exact Hi]. apply find_key_in in Ef. destruct st; try apply tri_bug.
  destruct (p_conf o) eqn:Ec; try (apply W; apply Hd); try (apply Hw; [exact Ef | unfold is_dynamic; rewrite Ec; reflexivity | discriminate]).
  destruct (configs_equal o c); [|apply W; apply Hd]. apply Hw; [exact Ef | unfold is_dynamic; rewrite Ec; reflexivity | discriminate].
Qed.
Lemma tin_configure : forall d pid, tin t G (configure_peer P d pid).
Proof.
  intros d pid. unfold configure_peer. apply tri_rd. intros p Hp Hi.
  assert (X : tri t (at_pid pid stat G) ((match p_conf p with CDisabled => ret tt | _ => when (bytes_eqb (c_own P) (p_key p)) (wr pid (set_p_conf CDisabled)) end) ;;
      p <- rd pid ;;
      match p_conf p with
      | CDisabled => peer_reset P pid
      | _ =>
          when (is_floating p) (modn (set_n_floating true)) ;;
          wr pid (set_p_conf CStatic) ;;
          when (negb (is_established p) && (p_dir p || negb d))%bool (peer_reset P pid)
      end) (fun _ => G)).
  { apply tri_then; [destruct (p_conf p); try (apply tin_when; intros _; apply tin_wr_conf; discriminate); apply tri_ret; trivial|]. intros _. apply tri_rd'. intros p1 Hp1 Hi1.
    assert (W : forall A (m : M A), tin t G m -> tri t (at_pid pid stat G) m (fun _ => G)) by (intros A m Hm; eapply tri_pre; [|exact Hm]; intros q [Hq _]; exact Hq).
    assert (Y : tri t (at_pid pid stat G) (when (is_floating p1) (modn (set_n_floating true)) ;; wr pid (set_p_conf CStatic) ;; when (negb (is_established p1) && (p_dir p1 || negb d))%bool (peer_reset P pid)) (fun _ => G)).
    { apply tri_then; [apply tin_when; intros _; apply tin_modn; intros n; repeat split|]. intros _. apply tri_then; [apply tin_wr_conf; discriminate|]. intros _. apply W. apply tin_when. intros _. apply tin_peer_reset. }
    destruct (p_conf p1); try exact Y. apply W. apply tin_peer_reset. }
  assert (X' : is_dynamic p = false -> forall A (m : M A), tri t (at_pid pid stat G) m (fun _ => G) -> tri t (fun q => G q /\ (p_id q = pid -> q = p)) m (fun _ => G)).
  { intros Hs A m Hm. eapply tri_pre; [|exact Hm]. intros q [Hq Hqp]. split; [exact Hq|]. intros Hqi. rewrite (Hqp Hqi). exact Hs. }
  destruct (p_conf p) eqn:Ec; try (apply X'; [unfold is_dynamic; rewrite Ec; reflexivity | exact X]).
  - eapply tri_pre; [|apply tin_peer_delete]. intros q [Hq _]. exact Hq.
  - apply tri_ret. intros q [Hq _]. exact Hq.
Qed.
Lemma tin_configure_peers : forall d, tin t G (configure_peers P d).
Proof.
  intros d. unfold configure_peers. apply tri_then; [apply tin_modn; intros n; repeat split|]. intros _. apply tri_gets. intros l. apply tin_each. intros pid. apply tin_configure.
Qed.
Lemma tin_load_peer_dirs : forall d defs, tin t G (load_peer_dirs P d defs).
Proof.
  intros d defs. unfold load_peer_dirs. apply tri_then.
  { intros n x n' H (A & I & E). apply modn_ok in H. subst n'. split; [exact A|]. split.
    - unfold ids_ok, ids in *. cbn [n_peers set_n_peers n_next_id]. rewrite map_map. replace (map _ (n_peers n)) with (map p_id (n_peers n)); [exact I|].
      apply map_ext. intros p. destruct (pre_reload_const p) as (c & -> & _). reflexivity.
    - intros p Hp. cbn [n_peers set_n_peers] in Hp. apply in_map_iff in Hp. destruct Hp as (p0 & <- & Hp). destruct (pre_reload_const p0) as (c & Ec & Hc).
      destruct (is_dynamic p0) eqn:Ed; [unfold pre_reload; rewrite Ed; exact (E p0 Hp)|]. rewrite Ec. apply Hconf; [exact (E p0 Hp) | exact Ed|].
      intros X. apply Hc in X. unfold is_dynamic in Ed. rewrite X in Ed. discriminate. }
  intros _. apply tri_then; [apply tin_each; intros c; apply tri_then; [apply tin_peer_add | intros _; apply tri_ret; trivial]|]. intros _. apply tin_configure_peers.
Qed.
Lemma tin_reset_all : tin t G (reset_all P).
Proof.
  unfold reset_all. apply tri_gets. intros l. apply tin_each. intros pid. apply tri_rd'. intros p Hp Hi. destruct (is_dynamic p); [apply tin_peer_delete | apply tin_peer_reset].
Qed.
Lemma tin_add_dynamic : forall sk key, tin t G (add_dynamic P sk key).
Proof.
  intros sk key. unfold add_dynamic. destruct (negb _); [apply tri_ret; trivial|]. destruct sk; [|apply tri_ret; trivial]. destruct (bytes_eqb _ _); [apply tri_ret; trivial|].
  apply tri_gets. intros l. destruct (find_peer_key l key); [apply tri_ret; trivial|]. destruct (negb _); [apply tri_ret; trivial|]. destruct (negb _); [apply tri_ret; trivial|].
  apply tri_then; [apply tin_peer_add|]. intros [| |id]; try apply tri_bug. apply tri_then; [apply tin_wr_same; [exact B | intros q; sm]|]. intros _.
  apply tri_then; [apply tin_peer_reset|]. intros _. apply tri_ret. trivial.
Qed.
Lemma tin_receive : forall sk la ra d, tin t G (receive P sk la ra d).
Proof.
  intros sk la ra d. unfold receive. apply tri_gets. intros l. apply tri_then.
  { destruct sk; [apply tri_ret; trivial|]. apply tri_rd'. intros p Hp Hi. apply tri_ret. trivial. }
  intros [pid|]; [|apply tri_ret; trivial]. cbv zeta.
  apply tri_bnd with (F1 := fun (can : bool) q => match pid with Some pid => if can then at_pid pid est G q else G q | None => G q end).
  { destruct pid as [pid|]; [|apply tri_ret; trivial]. apply tri_rd. intros p Hp Hi. apply tri_ret. intros q [Hq Hqp].
    destruct (is_established p) eqn:E; cbn [andb]; [|exact Hq]. destruct (addr_eqb _ _); [|exact Hq]. split; [exact Hq|]. intros Hqi. rewrite (Hqp Hqi). exact E. }
  intros can. apply tri_gets. intros fl.
  assert (Hrest : tin t G (if (match pid with None => negb (fl || allow_verify P) | Some _ => false end)%bool then ret tt
          else match classify d with
          | PHandshake pkt ctl =>
              o <- lift (handshake_handle (c_hs P) pkt ctl) ;;
              match o with
              | HIgnore => ret tt
              | HError _ _ _ => send_error sk ra pid
              | HProtocol h => w <- lift (view pkt h) ;; proto_handshake P sk la ra pid w
              end
          | PData _ _ =>
              backoff <- flip ;;
              when (negb backoff) (handshake_init (Some sk) (Some ra) None)
          | PInvalid => ret tt
          end)).
  { destruct (match pid with None => _ | Some _ => _ end); [apply tri_ret; trivial|]. destruct (classify d) as [pkt ctl|pkt ctl|].
    - apply tri_lift. intros [| |h] _; [apply tri_ret; trivial | apply tin_send_packet; exact B|]. apply tri_lift. intros w _.
      unfold proto_handshake. apply tri_then; [apply tin_maintenance|]. intros _. destruct (w_sender w) as [key|]; [|apply tri_ret; trivial].
      apply tri_then.
      { unfold match_sender_key. apply tri_then.
        - destruct sk, pid; try apply tri_bug; try (apply tri_ret; trivial). destruct (N.eqb _ _); [apply tri_ret; trivial | apply tri_bug].
        - intros _. apply tri_gets. intros l'. destruct pid; [|apply tri_ret; trivial]. apply tri_rd'. intros p Hp Hi. destruct (bytes_eqb _ _); [apply tri_ret; trivial|].
          destruct (owns_address _ _); apply tri_ret; trivial. }
      intros [q| |]; [apply tin_handshake_from | apply tri_ret; trivial|].
      apply tri_then; [apply tin_add_dynamic|]. intros [id|]; [apply tin_handshake_from | apply tri_ret; trivial].
    - apply tri_then; [apply tin_flip|]. intros b. apply tin_when. intros _. apply tin_handshake_init. exact B.
    - apply tri_ret. trivial. }
  destruct pid as [pid|]; [|exact Hrest]. destruct (classify d) as [pkt ctl|pkt ctl|] eqn:Ec; destruct can;
    try (apply tin_handle_recv); try exact Hrest; eapply tri_pre; try exact Hrest; intros q [Hq _]; exact Hq.
Qed.
End Added.
End Closed.
End Functions.
