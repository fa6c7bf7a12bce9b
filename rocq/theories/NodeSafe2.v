(** Weakest preconditions: setting up and resetting peers, addresses, payload *)
From Verif Require Import Base BufferModel NonceModel MethodModel HandshakeModel NodeModel NodeSteps NodeWf NodeSafe.
From Verif Require MethodProofs.
From Coq Require Import Lia ZifyBool ZifyNat ZifyN Sorted.
Local Open Scope Z_scope.

(** ** Remotes *)
Lemma nth_set_remote : forall p i f j, nth_error (p_remotes (set_remote i f p)) j =
  if Nat.eqb j i then option_map f (nth_error (p_remotes p) i) else nth_error (p_remotes p) j.
Proof.
  intros p i f j. unfold set_remote. cbn [p_remotes set_p_remotes]. generalize (p_remotes p) as l. clear p. revert i.
  induction j as [|j IH]; intros i l; destruct l as [|x l]; destruct i as [|i]; cbn; try reflexivity.
  - destruct (Nat.eqb j i); [destruct i|destruct j]; reflexivity.
  - rewrite <- (IH i l). cbn. reflexivity.
Qed.
Lemma length_set_remote : forall p i f, length (p_remotes (set_remote i f p)) = length (p_remotes p).
Proof.
  intros p i f. unfold set_remote. cbn [p_remotes set_p_remotes]. generalize (p_remotes p) as l. clear p. induction i as [|i IH]; intros [|x l]; cbn; try reflexivity.
  f_equal. apply IH.
Qed.
Lemma map_set_remote : forall A (g : remote -> A) p i f, (forall r, g (f r) = g r) -> map g (p_remotes (set_remote i f p)) = map g (p_remotes p).
Proof.
  intros A g p i f E. unfold set_remote. cbn [p_remotes set_p_remotes]. generalize (p_remotes p) as l. clear p.
  induction i as [|i IH]; intros [|x l]; cbn; try reflexivity.
  - rewrite E. reflexivity.
  - f_equal. apply IH.
Qed.
Lemma set_remote_nil : forall p i f, p_remotes p = [] <-> p_remotes (set_remote i f p) = [].
Proof.
  intros p i f. rewrite <- !length_zero_iff_nil. rewrite length_set_remote. reflexivity.
Qed.
Lemma core_inv : forall p q, core p = core q -> p_id p = p_id q /\ p_conf p = p_conf q /\ p_state p = p_state q /\ p_sock p = p_sock q /\
  p_addr p = p_addr q /\ is_some (p_sess p) = is_some (p_sess q) /\ map rc (p_remotes p) = map rc (p_remotes q) /\ p_next_remote p = p_next_remote q.
Proof. intros p q E. unfold core in E. injection E as E1 E2 E3 E4 E5 E6 E7 E8. repeat split; assumption. Qed.
Lemma core_set_remote : forall i f q, (forall r, rc (f r) = rc r) -> core (set_remote i f q) = core q.
Proof.
  intros i f q E. transitivity (p_id q, p_conf q, p_state q, p_sock q, p_addr q, is_some (p_sess q), map rc (p_remotes (set_remote i f q)), p_next_remote q);
    [reflexivity|]. rewrite (map_set_remote _ rc q i f E). reflexivity.
Qed.

Lemma set_sock_same : forall s p, p_sock p = s -> set_p_sock s p = p.
Proof. intros s p E. destruct p. cbn in *. rewrite <- E. reflexivity. Qed.
Lemma find_filter_fwd0 : forall l pid q, q <> pid ->
  find_id (filter (fun p => negb (N.eqb (p_id p) pid)) l) q = find_id l q.
Proof.
  induction l as [|x l IH]; intros pid q Hq; [reflexivity|]. cbn [filter]. unfold find_id in *.
  destruct (N.eqb_spec (p_id x) pid) as [E|E]; cbn [negb find].
  - rewrite IH by exact Hq. destruct (N.eqb_spec (p_id x) q); [congruence | reflexivity].
  - rewrite IH by exact Hq. reflexivity.
Qed.

Section Safe.
Variable P : params.
Notation ex := (ex P).
Notation exp := (exp P).

(** what stays the same when a peer gets other sockets and addresses *)
Definition kept (p p' : peer) : Prop :=
  p_id p' = p_id p /\ p_conf p' = p_conf p /\ p_state p' = p_state p /\ is_some (p_sess p') = is_some (p_sess p) /\
  map rc (p_remotes p') = map rc (p_remotes p) /\ p_next_remote p' = p_next_remote p.
Lemma kept_refl : forall p, kept p p.
Proof. intros p. repeat split. Qed.
Lemma kept_core : forall p p', core p' = core p -> kept p p'.
Proof. intros p p' E. unfold core in E. unfold kept. repeat split; congruence. Qed.
Lemma kept_trans : forall a b c, kept a b -> kept b c -> kept a c.
Proof. intros a b c (A1 & A2 & A3 & A4 & A5 & A6) (B1 & B2 & B3 & B4 & B5 & B6). repeat split; congruence. Qed.
Lemma kept_exp : forall p p', kept p p' -> exp p ->
  (forall o i, p_sock p' = Some (SDyn o i) -> o = p_id p /\ p_remotes p <> []) ->
  (p_state p = Established -> p_addr p' <> None /\ p_sock p' <> None) -> exp p'.
Proof.
  intros p p' (A1 & A2 & A3 & A4 & A5 & A6) [S E R D] Hs He. constructor.
  - intros o i H. destruct (Hs o i H) as [X Y]. split; [congruence|]. intros Z. apply Y. eapply remotes_core; eassumption.
  - intros H. rewrite A3 in H. destruct (E H) as (_ & X & _). destruct (He H) as [Y Z]. repeat split; try assumption.
    destruct (p_sess p'), (p_sess p); cbn in A4; congruence.
  - intros H. rewrite A3 in H. eapply rem_ok_core; [exact A5 | exact A6 | exact (R H)].
  - intros H. rewrite A2 in H. destruct (D H) as [X Y]. split; [|exact Y]. eapply remotes_core; [symmetry; exact A5 | exact X].
Qed.

Lemma found_id : forall n pid p, find_id (n_peers n) pid = Some p -> p_id p = pid.
Proof. intros n pid p H. apply find_id_in in H. apply H. Qed.

(** ** Sockets *)
Lemma wp_free_socket : forall pid n p (Q : unit -> node -> Prop), find_id (n_peers n) pid = Some p ->
  (forall o i, p_sock p = Some (SDyn o i) -> o = p_id p) ->
  (forall n', find_id (n_peers n') pid = Some (set_p_sock None p) -> ch (at_ pid) n n' -> Q tt n') -> wp (free_socket pid) n Q.
Proof.
  intros pid n p Q Hf Ho H. apply wp_bnd. eapply wp_rd; [exact Hf|]. destruct (p_sock p) as [[k|o i]|] eqn:Es.
  - eapply wp_wr; [exact Hf | intros q; reflexivity | exact H].
  - rewrite (Ho o i eq_refl), (found_id _ _ _ Hf), N.eqb_refl. eapply wp_wr; [exact Hf | intros q; reflexivity | exact H].
  - apply wp_ret. apply H; [|apply ch_refl]. rewrite Hf. destruct p; cbn in *; subst; reflexivity.
Qed.

Lemma wp_reset_socket : forall pid n p (Q : unit -> node -> Prop), find_id (n_peers n) pid = Some p -> is_established p = false ->
  p_remotes p <> [] -> ex n ->
  (forall n' p', find_id (n_peers n') pid = Some p' -> kept p p' -> p_addr p' = p_addr p -> p_lh_to p' = p_lh_to p ->
     ch (at_ pid) n n' -> ex n' -> Q tt n') -> wp (reset_socket pid) n Q.
Proof.
  intros pid n p Q Hf He Hr X H. pose proof (x_peers _ _ X _ _ Hf) as Xp.
  assert (Ho : forall o i, p_sock p = Some (SDyn o i) -> o = p_id p) by (intros o i E; apply (e_sock _ _ Xp o i E)).
  assert (Hn : p_state p <> Established) by (apply is_est_false; exact He).
  assert (Hset : forall n' s, find_id (n_peers n') pid = Some (set_p_sock s p) -> ch (at_ pid) n n' ->
     (forall o i, s = Some (SDyn o i) -> o = pid) -> Q tt n').
  { intros n' s Hf' C Hs. eapply H; [exact Hf' | repeat split | reflexivity | reflexivity | exact C|].
    eapply ch1_ex; [exact C | exact X | exact Hf'|]. eapply kept_exp; [|exact Xp | |].
    - repeat split.
    - intros o i E. cbn in E. rewrite (found_id _ _ _ Hf). split; [exact (Hs o i E) | exact Hr].
    - intros E. congruence. }
  apply wp_bnd. eapply wp_rd; [exact Hf|]. destruct (p_addr p) as [a|] eqn:Ea.
  - destruct (negb (is_sock_dynamic p)) eqn:Ed.
    + apply wp_ret. eapply H; [exact Hf | apply kept_refl | assumption | reflexivity | apply ch_refl | exact X].
    + apply wp_bnd. eapply wp_free_socket; [exact Hf | exact Ho|]. intros n1 Hf1 C1.
      apply wp_bnd. apply wp_flip. intros def n2 E2 L2. apply wp_bnd. apply wp_pop. intros x n3 E3 L3.
      assert (Hf3 : find_id (n_peers n3) pid = Some (set_p_sock None p)) by (rewrite E3, E2; exact Hf1).
      assert (C3 : ch (at_ pid) n n3) by (eapply ch_trans; [exact C1|]; apply lk_ch; eapply lk_trans; eassumption).
      destruct def.
      * eapply wp_wr; [exact Hf3 | intros q; reflexivity|]. intros n4 Hf4 C4.
        apply (Hset n4 (Some (SBound x))); [exact Hf4 | eapply ch_trans; eassumption | intros; discriminate].
      * destruct (N.eqb x 0).
        -- apply wp_ret. apply (Hset n3 None); [exact Hf3 | exact C3 | intros; discriminate].
        -- apply wp_bnd. apply wp_gets. apply wp_bnd. apply wp_modn.
           eapply wp_wr; [exact Hf3 | intros q; reflexivity|]. intros n4 Hf4 C4.
           apply (Hset n4 (Some (SDyn pid (n_next_sock n3)))); [exact Hf4 | | intros o i [= <- _]; reflexivity].
           eapply ch_trans; [exact C3|]. eapply ch_trans; [|exact C4]. apply lk_ch. apply same_peers_lk; reflexivity.
  - eapply wp_free_socket; [exact Hf | exact Ho|]. intros n1 Hf1 C1.
    apply (Hset n1 None); [exact Hf1 | exact C1 | intros; discriminate].
Qed.

(** ** Resetting *)
Lemma wp_reset_peer : forall pid n p (Q : unit -> node -> Prop), find_id (n_peers n) pid = Some p ->
  (forall o i, p_sock p = Some (SDyn o i) -> o = p_id p) ->
  (forall n' p', find_id (n_peers n') pid = Some p' -> p_id p' = p_id p -> p_conf p' = p_conf p -> p_state p' = Inactive -> p_sock p' = None ->
     p_addr p' = None -> p_sess p' = None -> p_remotes p' = p_remotes p -> p_next_remote p' = p_next_remote p -> p_next_hs p' = p_next_hs p ->
     (forall e, In e (n_eth n') -> e_peer e <> Some pid) ->
     ch (at_ pid) n n' -> Q tt n') -> wp (reset_peer P pid) n Q.
Proof.
  intros pid n p Q Hf Ho H. apply wp_bnd. eapply wp_rd; [exact Hf|]. apply wp_bnd.
  assert (Hgo : forall n1, n_peers n1 = n_peers n -> lk n n1 -> wp (free_socket pid ;;
     modn (fun n => set_n_eth (filter (fun e => negb (match e_peer e with Some q => N.eqb q pid | None => false end)) (n_eth n)) n) ;;
     wr pid (fun p =>
       let p := set_p_old None (set_p_sess None p) in
       let p := set_p_task None p in
       let p := set_p_addr None (set_p_laddr None p) in
       let p := set_p_state Inactive p in
       if (negb (c_iface_persist P) || (match p_conf p with CDisabled => true | _ => false end) || is_dynamic p)%bool
       then set_p_iface false p else p)) n1 Q).
  { intros n1 E1 L1. apply wp_bnd. eapply wp_free_socket; [rewrite E1; exact Hf | exact Ho|]. intros n2 Hf2 C2.
    apply wp_bnd. apply wp_modn. unfold wp, wr. cbn [n_peers set_n_eth]. rewrite Hf2.
    match goal with |- Q tt (set_n_peers (upd_id _ _ ?f) ?m) =>
      assert (Hk : keeps_id f) by (intros q; cbv zeta; destruct (_ || _)%bool; reflexivity); pose proof (wr_ch pid f m Hk) as C3;
      pose proof (find_id_upd_same (n_peers n2) pid f _ Hk Hf2) as Hf3 end.
    eapply H; [cbn [n_peers set_n_peers set_n_eth]; exact Hf3 | | | | | | | | | | |]; try (cbv zeta; destruct (_ || _)%bool; reflexivity).
    - intros e He X. cbn in He. apply filter_In in He. destruct He as [_ He]. rewrite X, N.eqb_refl in He. discriminate.
    - eapply ch_trans; [apply lk_ch; exact L1|]. eapply ch_trans; [exact C2|]. eapply ch_trans; [|exact C3].
      split; [|reflexivity]. constructor; try reflexivity; [|intros j Hj; left; exact Hj].
      intros e d He _. left. cbn in He. apply filter_In in He. exact (proj1 He). }
  apply wp_when; intros _; [apply wp_emit|]; intros; apply Hgo; auto. apply ch_refl.
Qed.
Lemma wp_rd_remote : forall pid i n p r (Q : remote -> node -> Prop), find_id (n_peers n) pid = Some p -> nth_error (p_remotes p) i = Some r ->
  Q r n -> wp (rd_remote pid i) n Q.
Proof. intros pid i n p r Q Hf Hr H. apply wp_bnd. eapply wp_rd; [exact Hf|]. rewrite Hr. apply wp_ret. exact H. Qed.

Lemma wp_resolve : forall pid i n p r (Q : unit -> node -> Prop), find_id (n_peers n) pid = Some p -> p_conf p <> CDynamic ->
  nth_error (p_remotes p) i = Some r ->
  (forall n' p', find_id (n_peers n') pid = Some p' -> lk n n' -> Q tt n') -> wp (resolve_peer pid i) n Q.
Proof.
  intros pid i n p r Q Hf Hd Hr H. apply wp_bnd. eapply wp_rd; [exact Hf|].
  assert (Ed : is_dynamic p = false) by (unfold is_dynamic; destruct (p_conf p); congruence). rewrite Ed.
  apply wp_bnd. eapply wp_rd_remote; [exact Hf | exact Hr|]. apply wp_bnd. apply wp_gets.
  destruct (negb (timed_out (n_now n) (r_to r))).
  - apply wp_ret. eapply H; [exact Hf | apply ch_refl].
  - apply wp_bnd. eapply wp_wr_lk; [exact Hf | |].
    + intros q. apply core_set_remote. reflexivity.
    + intros n1 Hf1 L1. apply wp_bnd. apply wp_flip. intros ok n2 E2 L2. apply wp_when; intros _.
      * apply wp_bnd. apply wp_emit. intros n3 E3 L3. apply wp_modn. eapply H.
        -- cbn [n_peers set_n_resolving]. rewrite E3, E2. exact Hf1.
        -- eapply lk_trans; [exact L1|]. eapply lk_trans; [exact L2|]. eapply lk_trans; [exact L3|]. apply same_peers_lk; reflexivity.
      * eapply H; [rewrite E2; exact Hf1 | eapply lk_trans; eassumption].
Qed.

Lemma wp_init_handshake : forall pid n p (Q : unit -> node -> Prop), find_id (n_peers n) pid = Some p ->
  (forall n' p', find_id (n_peers n') pid = Some p' -> ch (at_ pid) n n' -> core p' = core (set_p_state Handshaking p) -> Q tt n') ->
  wp (init_handshake P pid) n Q.
Proof.
  intros pid n p Q Hf H. apply wp_bnd. eapply wp_rd; [exact Hf|]. apply wp_bnd.
  assert (Hgo : forall d n1, n_peers n1 = n_peers n -> lk n n1 -> wp (wr pid (set_p_state Handshaking);; schedule_handshake pid d) n1 Q).
  { intros d n1 E1 L1. apply wp_bnd. eapply wp_wr; [rewrite E1; exact Hf | intros q; reflexivity|]. intros n2 Hf2 C2.
    eapply wp_schedule_handshake; [exact Hf2|]. intros n3 Hf3 L3. eapply H; [exact Hf3 | | rewrite core_sched; reflexivity].
    eapply ch_trans; [apply lk_ch; exact L1|]. eapply ch_trans; [exact C2 | apply lk_ch; exact L3]. }
  destruct (has_limits P p); [apply wp_rand; intros; apply Hgo; assumption|]. apply wp_ret. apply Hgo; [reflexivity | apply ch_refl].
Qed.

(** a peer that was set up *)
Definition fresh_p (p p' : peer) : Prop :=
  p_id p' = p_id p /\ p_conf p' = p_conf p /\ p_state p' <> Established /\ (p_remotes p' = [] <-> p_remotes p = []) /\
  (p_remotes p = [] -> p_next_hs p' = None) /\ (rem_ok p' \/ p_next_hs p' = None).

(** the two halves of [setup_peer] *)
Definition setup_fn (now : Z) (p : peer) : peer :=
    let p := set_p_remotes (map (fun r => mk_remote (r_host r) (r_addr r)
                 (match r_host r with None => [r_addr r] | Some _ => r_addrs r end) (r_cur r) now) (p_remotes p)) p in
    let p := set_p_next_remote (match p_remotes p with [] => None | _ => Some 0%nat end) p in
    let p := set_p_lh_to now (set_p_lh_addr None p) in
    let p := set_p_lhr_to now (set_p_lhr_addr None p) in
    let p := set_p_eh_to now p in
    let p := set_p_verify_to now (set_p_valid_to now p) in
    let p := set_p_next_hs None (set_p_keep_to None p) in
    set_p_reset_to (if is_dynamic p then Some now else None) p.
Definition setup_rest (pid : N) : M unit :=
  p <- rd pid ;;
  if negb (is_enabled p) then ret tt
  else
    (if c_shared_iface P then wr pid (set_p_iface true)
     else if (c_iface_persist P && negb (p_iface p) && negb (is_dynamic p))%bool then
       ok <- flip ;;
       if ok then wr pid (set_p_iface true)
       else if p_dir p then ret tt else exit_fatal
     else ret tt) ;;
    match p_next_remote p with
    | Some i =>
        r <- rd_remote pid i ;;
        wr pid (set_remote i (set_r_cur 0)) ;;
        match r_host r with
        | Some _ =>
            wr pid (set_p_state Resolving) ;;
            resolve_peer pid i ;;
            d <- handshake_default_rand ;;
            set_next_handshake pid d
        | None => init_handshake P pid
        end
    | None => wr pid (set_p_state Passive)
    end ;;
    schedule_peer_task pid.
Lemma setup_halves : forall pid, setup_peer P pid = (now <- gets n_now ;; wr pid (setup_fn now) ;; setup_rest pid).
Proof. reflexivity. Qed.
Lemma setup_fn_facts : forall now p, let p1 := setup_fn now p in
  map (fun r => (r_host r, r_cur r)) (p_remotes p1) = map (fun r => (r_host r, r_cur r)) (p_remotes p) /\
  p_id p1 = p_id p /\ p_conf p1 = p_conf p /\ p_state p1 = p_state p /\ p_sock p1 = p_sock p /\ p_next_hs p1 = None /\
    p_next_remote p1 = match p_remotes p1 with [] => None | _ => Some 0%nat end.
Proof. intros now p. destruct p. unfold setup_fn. cbn. rewrite map_map. repeat split. Qed.

Lemma wp_setup_rest : forall pid n p n1 p1 (Q : unit -> node -> Prop), exp p -> ex n -> p_id p = pid ->
  find_id (n_peers n1) pid = Some p1 -> ch (at_ pid) n n1 ->
  map (fun r => (r_host r, r_cur r)) (p_remotes p1) = map (fun r => (r_host r, r_cur r)) (p_remotes p) ->
  p_id p1 = p_id p -> p_conf p1 = p_conf p -> p_state p1 = Inactive -> p_sock p1 = p_sock p -> p_next_hs p1 = None ->
    p_next_remote p1 = match p_remotes p1 with [] => None | _ => Some 0%nat end ->
  (forall n' p', find_id (n_peers n') pid = Some p' -> fresh_p p p' -> ch (at_ pid) n n' -> ex n' -> Q tt n') -> wp (setup_rest pid) n1 Q.
Proof.
  intros pid n p n1 p1 Q Xp X Ep Hf1 C1 R1 K1 K2 K3 K4 K5 K6 H.
  assert (Rn : p_remotes p1 = [] <-> p_remotes p = []).
  { split; intros E; [apply (map_nil_iff _ _ (fun r => (r_host r, r_cur r))); rewrite <- R1, E; reflexivity | apply (map_nil_iff _ _ (fun r => (r_host r, r_cur r))); rewrite R1, E; reflexivity]. }
  assert (D1 : p_conf p1 = CDynamic -> p_remotes p1 = []) by (intros E; apply Rn; apply (e_dyn _ _ Xp); congruence).
  assert (Xp1 : exp p1).
  { constructor.
    - intros o i E. rewrite K4 in E. destruct (e_sock _ _ Xp o i E) as [A B]. split; [congruence | rewrite Rn; exact B].
    - intros E. congruence.
    - intros E. congruence.
    - intros E. split; [exact (D1 E)|]. apply (e_dyn _ _ Xp). congruence. }
  assert (X1 : ex n1) by (eapply ch1_ex; [exact C1 | exact X | exact Hf1 | exact Xp1]).
  apply wp_bnd. eapply wp_rd; [exact Hf1|]. destruct (negb (is_enabled p1)).
  { apply wp_ret. eapply H; [exact Hf1 | | exact C1 | exact X1]. split; [exact K1|]. split; [exact K2|]. split; [congruence|]. split; [exact Rn|].
    split; [intros _; exact K5 | right; exact K5]. }
  apply wp_bnd.
  assert (Hgo : forall n2 p2, find_id (n_peers n2) pid = Some p2 -> core p2 = core p1 -> p_next_hs p2 = None ->
    map r_host (p_remotes p2) = map r_host (p_remotes p1) -> lk n1 n2 ->
    wp (match p_next_remote p1 with
    | Some i =>
        r <- rd_remote pid i ;;
        wr pid (set_remote i (set_r_cur 0)) ;;
        match r_host r with
        | Some _ =>
            wr pid (set_p_state Resolving) ;;
            resolve_peer pid i ;;
            d <- handshake_default_rand ;;
            set_next_handshake pid d
        | None => init_handshake P pid
        end
    | None => wr pid (set_p_state Passive)
    end ;; schedule_peer_task pid) n2 Q).
  { intros n2 p2 Hf2 Ec2 Eh2 _ L2. assert (C2 : ch (at_ pid) n n2) by (eapply ch_trans; [exact C1 | apply lk_ch; exact L2]).
    unfold core in Ec2. injection Ec2 as Q1 Q2 Q3 Q4 Q5 Q6 Q7 Q8.
    assert (Rn2 : p_remotes p2 = [] <-> p_remotes p1 = []) by (rewrite <- !(map_nil_iff _ _ rc), Q7; reflexivity).
    (* the end: a peer with another state *)
    assert (Hend : forall n3 p3, find_id (n_peers n3) pid = Some p3 -> ch (at_ pid) n n3 -> p_id p3 = p_id p -> p_conf p3 = p_conf p ->
       p_sock p3 = p_sock p -> p_state p3 <> Established -> (p_remotes p3 = [] <-> p_remotes p = []) ->
       (p_remotes p3 = [] -> p_next_hs p3 = None) -> rem_ok p3 -> wp (schedule_peer_task pid) n3 Q).
    { intros n3 p3 Hf3 C3 I3 F3 S3 T3 R3 N3 M3. eapply wp_schedule; [exact Hf3|]. intros n4 Hf4 L4.
      assert (C4 : ch (at_ pid) n n4) by (eapply ch_trans; [exact C3 | apply lk_ch; exact L4]).
      eapply H; [exact Hf4 | | exact C4|].
      - unfold fresh_p. destruct (sched_is p3) as [t ->]. cbn. repeat split; try assumption; try (apply R3).
        + intros E. apply N3. apply R3. exact E.
        + left. exact M3.
      - eapply ch1_ex; [exact C4 | exact X | exact Hf4|]. eapply exp_core; [apply core_sched|]. constructor.
        + intros o i E. rewrite S3 in E. destruct (e_sock _ _ Xp o i E) as [A B]. split; [congruence | rewrite R3; exact B].
        + intros E. congruence.
        + intros _. exact M3.
        + intros E. rewrite F3 in E. destruct (e_dyn _ _ Xp E) as [A B]. split; [apply R3; exact A | exact B]. }
    apply wp_bnd. rewrite K6 in *. destruct (p_remotes p1) as [|r1 l1] eqn:El1.
    - eapply wp_wr; [exact Hf2 | intros q; reflexivity|]. intros n3 Hf3 C3. eapply Hend; [exact Hf3 | eapply ch_trans; eassumption | | | | | | |]; cbn; try congruence.
      + rewrite Rn2. exact Rn.
      + intros i Hn. exfalso. apply Hn. apply Rn2. reflexivity.
    - destruct (p_remotes p2) as [|r2 l2] eqn:El2; [exfalso; destruct Rn2 as [A _]; specialize (A eq_refl); discriminate|].
      apply wp_bnd. eapply wp_rd_remote; [exact Hf2 | rewrite El2; reflexivity|].
      apply wp_bnd. eapply wp_wr; [exact Hf2 | intros q; reflexivity|]. intros n3 Hf3 C3.
      assert (C3' : ch (at_ pid) n n3) by (eapply ch_trans; eassumption).
      assert (E3 : p_remotes (set_remote 0 (set_r_cur 0) p2) = set_r_cur 0 r2 :: l2) by (unfold set_remote; cbn; rewrite El2; reflexivity).
      assert (Hne : p_remotes p <> []) by (intros E; apply Rn in E; discriminate).
      assert (M3 : forall p4, map rc (p_remotes p4) = map rc (set_r_cur 0 r2 :: l2) -> p_next_remote p4 = Some 0%nat -> rem_ok p4).
      { intros p4 E4 N4 i _ Hi'. rewrite N4 in Hi'. injection Hi' as <-. destruct (p_remotes p4) as [|r4 l4]; [discriminate|].
        exists r4. split; [reflexivity|]. cbn in E4. injection E4 as E4 E5 _. rewrite E4, E5. destruct (r_addrs r2); [left; reflexivity | right; cbn; lia]. }
      assert (NE : forall p4, map rc (p_remotes p4) = map rc (set_r_cur 0 r2 :: l2) -> p_remotes p4 <> []).
      { intros p4 E4 Z. rewrite Z in E4. discriminate. }
      destruct (r_host r2) as [h|].
      + apply wp_bnd. eapply wp_wr; [exact Hf3 | intros q; reflexivity|]. intros n4 Hf4 C4.
        apply wp_bnd. eapply wp_resolve; [exact Hf4 | | cbn [p_remotes set_p_state]; rewrite E3; reflexivity |].
        { cbn [p_conf set_p_state set_remote set_p_remotes]. intros Z. rewrite Q2 in Z. specialize (D1 Z). discriminate. }
        intros n5 p5 Hf5 L5. apply wp_bnd. apply wp_rand. intros d n6 E6 L6 _. eapply wp_set_next; [rewrite E6; exact Hf5|]. intros n7 Hf7 L7.
        destruct (lk_find _ _ _ _ L5 Hf4) as (p5' & Y & E5). rewrite Hf5 in Y. injection Y as <-.
        apply core_inv in E5. destruct E5 as (W1 & W2 & W3 & W4 & W5 & W6 & W7 & W8). change (p_remotes (set_p_state Resolving (set_remote 0 (set_r_cur 0) p2))) with (p_remotes (set_remote 0 (set_r_cur 0) p2)) in W7.
        cbn in W1, W2, W3, W4, W8. rewrite E3 in W7.
        eapply Hend; [exact Hf7 | | | | | | | |].
        * eapply ch_trans; [exact C3'|]. eapply ch_trans; [exact C4|]. apply lk_ch. eapply lk_trans; [exact L5|]. eapply lk_trans; eassumption.
        * cbn. congruence.
        * cbn. congruence.
        * cbn. congruence.
        * cbn. congruence.
        * split; intros Z; [|contradiction]. exfalso. exact (NE p5 W7 Z).
        * intros Z. exfalso. exact (NE p5 W7 Z).
        * apply M3; [exact W7 | cbn; congruence].
      + eapply wp_init_handshake; [exact Hf3|]. intros n4 p4 Hf4 C4 E4.
        apply core_inv in E4. destruct E4 as (W1 & W2 & W3 & W4 & W5 & W6 & W7 & W8). change (p_remotes (set_p_state Handshaking (set_remote 0 (set_r_cur 0) p2))) with (p_remotes (set_remote 0 (set_r_cur 0) p2)) in W7.
        cbn in W1, W2, W3, W4, W8. rewrite E3 in W7.
        eapply Hend; [exact Hf4 | eapply ch_trans; eassumption | congruence | congruence | congruence | congruence | | |].
        * split; intros Z; [|contradiction]. exfalso. exact (NE p4 W7 Z).
        * intros Z. exfalso. exact (NE p4 W7 Z).
        * apply M3; [exact W7 | congruence]. }
  destruct (c_shared_iface P).
  { eapply wp_wr_lk; [exact Hf1 | reflexivity|]. intros n2 Hf2 L2. eapply Hgo; [exact Hf2 | reflexivity | exact K5 | reflexivity | exact L2]. }
  destruct (_ && _)%bool.
  - apply wp_bnd. apply wp_flip. intros ok n2 E2 L2. destruct ok.
    + eapply wp_wr_lk; [rewrite E2; exact Hf1 | reflexivity|]. intros n3 Hf3 L3. eapply Hgo; [exact Hf3 | reflexivity | exact K5 | reflexivity | eapply lk_trans; eassumption].
    + destruct (p_dir p1); [|apply wp_fatal]. apply wp_ret. eapply Hgo; [rewrite E2; exact Hf1 | reflexivity | exact K5 | reflexivity | exact L2].
  - apply wp_ret. eapply Hgo; [exact Hf1 | reflexivity | exact K5 | reflexivity | apply ch_refl].
Qed.

Lemma wp_setup : forall pid n p (Q : unit -> node -> Prop), find_id (n_peers n) pid = Some p -> p_state p = Inactive -> ex n ->
  (forall n' p', find_id (n_peers n') pid = Some p' -> fresh_p p p' -> ch (at_ pid) n n' -> ex n' -> Q tt n') -> wp (setup_peer P pid) n Q.
Proof.
  intros pid n p Q Hf Hi X H. pose proof (x_peers _ _ X _ _ Hf) as Xp. rewrite setup_halves. apply wp_bnd. apply wp_gets. apply wp_bnd.
  destruct (setup_fn_facts (n_now n) p) as (F1 & F2 & F3 & F4 & F5 & F6 & F7).
  eapply wp_wr; [exact Hf | intros q; apply (setup_fn_facts (n_now n) q)|]. intros n1 Hf1 C1.
  eapply wp_setup_rest; [exact Xp | exact X | exact (found_id _ _ _ Hf) | exact Hf1 | exact C1 | exact F1 | exact F2 | exact F3 | congruence | exact F5 | exact F6 | exact F7 | exact H].
Qed.

Lemma wp_peer_reset : forall pid n p (Q : unit -> node -> Prop), find_id (n_peers n) pid = Some p -> ex n ->
  (forall n' p', find_id (n_peers n') pid = Some p' -> fresh_p p p' -> ch (at_ pid) n n' -> ex n' -> Q tt n') -> wp (peer_reset P pid) n Q.
Proof.
  intros pid n p Q Hf X H. pose proof (x_peers _ _ X _ _ Hf) as Xp. apply wp_bnd. eapply wp_rd; [exact Hf|]. apply wp_bnd.
  assert (Hr : wp (reset_peer P pid) n (fun _ n' => wp (setup_peer P pid) n' Q)).
  { eapply wp_reset_peer; [exact Hf | intros o i E; apply (e_sock _ _ Xp o i E)|].
    intros n1 p1 Hf1 I1 F1 S1 K1 A1 Z1 R1 N1 H1 _ C1.
    eapply wp_setup; [exact Hf1 | exact S1 | |].
    - eapply ch1_ex; [exact C1 | exact X | exact Hf1|]. constructor; try congruence.
      intros E. rewrite F1 in E. rewrite R1. exact (e_dyn _ _ Xp E).
    - intros n2 p2 Hf2 (W1 & W2 & W3 & W4 & W5 & W6) C2 X2. eapply H; [exact Hf2 | | eapply ch_trans; eassumption | exact X2].
      rewrite R1 in W4, W5. repeat split; try assumption; try (apply W4); congruence. }
  destruct (p_state p) eqn:Es; try exact Hr. apply wp_ret. eapply wp_setup; [exact Hf | exact Es | exact X | exact H].
Qed.

(** ** Deleting *)
Lemma wp_peer_delete : forall pid n p (Q : unit -> node -> Prop), find_id (n_peers n) pid = Some p -> ex n ->
  (forall n', ex n' -> (forall q, q <> pid -> fcore n' q = fcore n q) -> n_next_id n' = n_next_id n -> n_now n' = n_now n -> Q tt n') -> wp (peer_delete P pid) n Q.
Proof.
  intros pid n p Q Hf X H. pose proof (x_peers _ _ X _ _ Hf) as Xp. apply wp_bnd.
  eapply wp_reset_peer; [exact Hf | intros o i E; apply (e_sock _ _ Xp o i E)|].
  intros n1 p1 Hf1 I1 F1 S1 K1 A1 Z1 R1 N1 H1 E1 C1.
  assert (X1 : ex n1).
  { eapply ch1_ex; [exact C1 | exact X | exact Hf1|]. constructor; try congruence. intros E. rewrite F1 in E. rewrite R1. exact (e_dyn _ _ Xp E). }
  apply wp_modn. destruct X1 as [Xi Xps Xe Xv]. destruct C1 as [F C].
  assert (Hin : forall d, In d (ids (n_peers n1)) -> d <> pid -> In d (ids (filter (fun p => negb (N.eqb (p_id p) pid)) (n_peers n1)))).
  { intros d Hd Hn. apply has_iff in Hd. destruct Hd as (q & Hq). apply has_iff. exists q. rewrite find_filter_fwd0 by exact Hn. exact Hq. }
  apply H.
  - constructor; cbn [n_peers n_eth n_verifying n_next_id set_n_peers].
    + destruct Xi as [Xi1 Xi2]. split; [apply filter_sorted; exact Xi1|]. rewrite Forall_forall in *. intros d Hd. apply Xi2. cbn [n_peers set_n_peers] in Hd.
      unfold ids in *. apply in_map_iff in Hd. destruct Hd as (z & <- & Hz). apply in_map. apply filter_In in Hz. exact (proj1 Hz).
    + intros q q0 Hq. apply find_id_filter in Hq. exact (Xps q q0 (proj1 Hq)).
    + intros e d He Hd. apply Hin; [exact (Xe e d He Hd)|]. intros ->. exact (E1 e He Hd).
    + exact Xv.
  - intros q Hq. rewrite <- (C q Hq). unfold fcore. cbn [n_peers set_n_peers]. rewrite find_filter_fwd0 by exact Hq. reflexivity.
  - exact (fm_next _ _ F).
  - exact (fm_now _ _ F).
Qed.

(** ** Addresses *)
Lemma wp_reset_address : forall pid n p (Q : unit -> node -> Prop), find_id (n_peers n) pid = Some p -> ex n ->
  (forall n' p', find_id (n_peers n') pid = Some p' -> ch (at_ pid) n n' -> ex n' ->
     (is_established p = false -> p' = set_p_addr None p) -> Q tt n') -> wp (reset_peer_address P pid) n Q.
Proof.
  intros pid n p Q Hf X H. pose proof (x_peers _ _ X _ _ Hf) as Xp. apply wp_bnd. eapply wp_rd; [exact Hf|]. destruct (is_established p) eqn:Ee.
  - eapply wp_peer_reset; [exact Hf | exact X|]. intros n1 p1 Hf1 _ C1 X1. eapply H; [exact Hf1 | exact C1 | exact X1 | discriminate].
  - eapply wp_wr; [exact Hf | intros q; reflexivity|]. intros n1 Hf1 C1. eapply H; [exact Hf1 | exact C1 | | reflexivity].
    eapply ch1_ex; [exact C1 | exact X | exact Hf1|]. eapply kept_exp; [|exact Xp | |]; [repeat split | |].
    + intros o i E. exact (e_sock _ _ Xp o i E).
    + intros E. apply is_est_true in E. congruence.
Qed.

Lemma claim_scan_in : forall l pid a force q, claim_scan l pid a force = ClEvict q -> exists p, In p l /\ p_id p = q /\ q <> pid.
Proof.
  induction l as [|x l IH]; intros pid a force q H; [discriminate|]. cbn in H.
  assert (R : claim_scan l pid a force = ClEvict q -> exists p, In p (x :: l) /\ p_id p = q /\ q <> pid).
  { intros E. destruct (IH _ _ _ _ E) as (p & A & B). exists p. split; [right; exact A | exact B]. }
  destruct (N.eqb_spec (p_id x) pid) as [E|E]; [exact (R H)|]. destruct (negb (is_enabled x)); [exact (R H)|].
  destruct (owns_address x a); [discriminate|]. destruct (addr_eqb (p_addr x) (Some a)); [|exact (R H)].
  destruct (_ && _)%bool; [discriminate|]. injection H as <-. exists x. split; [left; reflexivity | split; [reflexivity | exact E]].
Qed.

(** the socket a packet for the peer was received on *)
Definition sk_for (n : node) (pid : N) (sk : sock) : Prop :=
  match sk with SBound _ => True | SDyn _ _ => exists p, find_id (n_peers n) pid = Some p /\ p_sock p = Some sk end.
Lemma sk_for_alive : forall n pid sk, ex n -> sk_for n pid sk -> alive_sk n sk.
Proof.
  intros n pid sk X H. destruct sk as [k|o i]; [reflexivity|]. destruct H as (p & Hf & Hs). eapply alive_own; eassumption.
Qed.
Lemma sk_for_ch : forall S n n' pid sk, ch S n n' -> ~ S pid -> sk_for n pid sk -> sk_for n' pid sk.
Proof.
  intros S n n' pid sk C Hn H. destruct sk as [k|o i]; [exact Logic.I|]. destruct H as (p & Hf & Hs).
  destruct (ch_find _ _ _ _ _ C Hn Hf) as (p' & Hf' & E). exists p'. split; [exact Hf'|]. apply core_inv in E. destruct E as (_ & _ & _ & -> & _). exact Hs.
Qed.
Lemma sk_for_lk : forall n n' pid sk, lk n n' -> sk_for n pid sk -> sk_for n' pid sk.
Proof. intros n n' pid sk L. apply (sk_for_ch _ _ _ _ _ L). intros []. Qed.

Lemma wp_claim : forall pid sk la a force n p (Q : bool -> node -> Prop), find_id (n_peers n) pid = Some p -> ex n ->
  match sk with Some sk => sk_for n pid sk | None => is_established p = false end ->
  (forall b n' p', find_id (n_peers n') pid = Some p' -> frame n n' -> ex n' ->
     (b = true -> kept p p' /\ p_addr p' = Some a /\ p_sock p' = match sk with Some s => Some s | None => p_sock p end) ->
     (is_established p = false -> kept p p') -> Q b n') -> wp (claim_address P pid sk la a force) n Q.
Proof.
  intros pid sk la a force n p Q Hf X Hsk H. pose proof (x_peers _ _ X _ _ Hf) as Xp. apply wp_bnd. apply wp_gets.
  assert (Hgo : forall n1 p1, find_id (n_peers n1) pid = Some p1 -> core p1 = core p -> frame n n1 -> ex n1 ->
    match sk with Some sk => sk_for n1 pid sk | None => True end ->
    wp (wr pid (set_p_addr (Some a)) ;;
      match sk with
      | Some (SBound k) =>
          p <- rd pid ;;
          match p_sock p with
          | Some (SBound k') => when (negb (N.eqb k k')) (free_socket pid ;; wr pid (set_p_sock (Some (SBound k))))
          | _ => free_socket pid ;; wr pid (set_p_sock (Some (SBound k)))
          end
      | Some sk => use_sock sk
      | None => ret tt
      end ;;
      match la with
      | Some la => wr pid (set_p_laddr (Some la))
      | None => ret tt
      end ;;
      ret true) n1 Q).
  { intros n1 p1 Hf1 Ec1 F1 X1 Hsk1. pose proof (x_peers _ _ X1 _ _ Hf1) as Xp1.
    apply wp_bnd. eapply wp_wr; [exact Hf1 | intros q; reflexivity|]. intros n2 Hf2 C2.
    assert (K : forall n3 s, find_id (n_peers n3) pid = Some (set_p_sock s (set_p_addr (Some a) p1)) -> ch (at_ pid) n1 n3 ->
       s = match sk with Some s => Some s | None => p_sock p end ->
       wp (match la with Some la => wr pid (set_p_laddr (Some la)) | None => ret tt end ;; ret true) n3 Q).
    { intros n3 s Hf3 C3 Es. apply wp_bnd.
      assert (Hend : forall n4, (exists l, find_id (n_peers n4) pid = Some (set_p_laddr l (set_p_sock s (set_p_addr (Some a) p1)))) -> ch (at_ pid) n1 n4 -> Q true n4).
      { intros n4 (l & Hf4) C4. apply core_inv in Ec1. destruct Ec1 as (W1 & W2 & W3 & W4 & W5 & W6 & W7 & W8).
        assert (Kp : kept p (set_p_laddr l (set_p_sock s (set_p_addr (Some a) p1)))) by (unfold kept; cbn; repeat split; assumption).
        eapply H; [exact Hf4 | eapply frame_trans; [exact F1 | apply C4] | | |].
        - eapply ch1_ex; [exact C4 | exact X1 | exact Hf4|]. eapply kept_exp; [exact Kp | exact Xp | |].
          + intros o i E. cbn in E. rewrite Es in E. destruct sk as [sk0|]; [|exact (e_sock _ _ Xp o i E)].
            injection E as ->. cbn in Hsk. destruct Hsk as (p0 & Y & Z). rewrite Hf in Y. injection Y as <-. exact (e_sock _ _ Xp o i Z).
          + intros E. cbn. split; [discriminate|]. rewrite Es. destruct sk as [sk0|]; [discriminate|]. apply is_est_true in E. congruence.
        - intros _. split; [exact Kp | split; [reflexivity | exact Es]].
        - intros _. exact Kp. }
      destruct la as [la|].
      - eapply wp_wr; [exact Hf3 | intros q; reflexivity|]. intros n4 Hf4 C4. apply wp_ret. apply Hend; [eexists; exact Hf4 | eapply ch_trans; eassumption].
      - apply wp_ret. apply wp_ret. apply Hend; [|exact C3]. exists (p_laddr p1). rewrite Hf3. f_equal; destruct p1; reflexivity. }
    assert (Ho : forall o i, p_sock p1 = Some (SDyn o i) -> o = p_id p1) by (intros o i E; apply (e_sock _ _ Xp1 o i E)).
    assert (E4 : p_sock p1 = p_sock p) by (apply core_inv in Ec1; apply Ec1).
    apply wp_bnd. destruct sk as [[k|o i]|].
    - apply wp_bnd. eapply wp_rd; [exact Hf2|].
      assert (Hset : wp (free_socket pid ;; wr pid (set_p_sock (Some (SBound k)))) n2 (fun _ n' =>
         wp (match la with Some la => wr pid (set_p_laddr (Some la)) | None => ret tt end ;; ret true) n' Q)).
      { apply wp_bnd. eapply wp_free_socket; [exact Hf2 | exact Ho|]. intros n3 Hf3 C3. eapply wp_wr; [exact Hf3 | intros q; reflexivity|].
        intros n4 Hf4 C4. eapply K; [exact Hf4 | eapply ch_trans; [exact C2|]; eapply ch_trans; eassumption | reflexivity]. }
      destruct (p_sock (set_p_addr (Some a) p1)) as [[k'|o i]|] eqn:Es; try exact Hset.
      apply wp_when; intros Eb; [exact Hset|]. apply Bool.negb_false_iff in Eb. apply N.eqb_eq in Eb. subst k'.
      eapply (K n2 (Some (SBound k))); [|exact C2 | reflexivity]. rewrite (set_sock_same _ _ Es). exact Hf2.
    - apply wp_use_sock.
      + cbn in Hsk1. destruct Hsk1 as (p0 & Y & Z). rewrite Hf1 in Y. injection Y as <-.
        unfold alive_sk, sock_alive. assert (Eo : o = pid) by (rewrite (Ho o i Z); exact (found_id _ _ _ Hf1)). rewrite Eo in *. rewrite Hf2. cbn. rewrite Z. cbn.
        rewrite !N.eqb_refl. reflexivity.
      + cbn in Hsk1. destruct Hsk1 as (p0 & Y & Z). rewrite Hf1 in Y. injection Y as <-.
        eapply (K n2 (Some (SDyn o i))); [|exact C2 | reflexivity]. rewrite (set_sock_same _ (set_p_addr (Some a) p1) Z). exact Hf2.
    - apply wp_ret. eapply (K n2 (p_sock p1)); [|exact C2 | exact E4]. rewrite (set_sock_same (p_sock p1) (set_p_addr (Some a) p1) eq_refl). exact Hf2. }
  assert (Hsk' : match sk with Some sk => sk_for n pid sk | None => True end) by (destruct sk; [exact Hsk | exact Logic.I]).
  destruct (claim_scan (n_peers n) pid a force) as [| |q] eqn:Ec.
  - apply wp_bnd. apply wp_ret. eapply Hgo; [exact Hf | reflexivity | apply frame_refl | exact X | exact Hsk'].
  - apply wp_bnd. eapply wp_reset_address; [exact Hf | exact X|]. intros n1 p1 Hf1 C1 X1 E1. apply wp_ret.
    eapply H; [exact Hf1 | apply C1 | exact X1 | discriminate|]. intros E. rewrite (E1 E). repeat split.
  - apply claim_scan_in in Ec. destruct Ec as (q0 & Hq0 & Eq0 & Hne).
    assert (Hq : exists q1, find_id (n_peers n) q = Some q1) by (apply has_iff; rewrite <- Eq0; unfold ids; apply in_map; exact Hq0).
    destruct Hq as (q1 & Hq1). apply wp_bnd. eapply wp_reset_address; [exact Hq1 | exact X|]. intros n1 q2 Hq2 C1 X1 _.
    assert (Hn : ~ at_ q pid) by (unfold at_; congruence).
    destruct (ch_find _ _ _ _ _ C1 Hn Hf) as (p1 & Hf1 & E1).
    eapply Hgo; [exact Hf1 | exact E1 | apply C1 | exact X1|]. destruct sk as [sk|]; [|exact Logic.I]. eapply sk_for_ch; eassumption.
Qed.
End Safe.
