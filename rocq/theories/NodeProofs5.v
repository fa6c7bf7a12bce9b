(** Proofs of the theorems about nodes, part 5: timeouts and keepalives *)
From Verif Require Import Base BaseLemmas BufferModel NonceModel MethodModel HandshakeModel HandshakeSpec HandshakeProofs
  NodeModel NodeSteps NodeWf NodeInv NodeFun NodeFun2 NodeFun3 NodeFun4 NodeSpec NodeProofs NodeProofs2 NodeProofs3 NodeProofs4.
From Coq Require Import Lia ZifyBool ZifyNat ZifyN Sorted.
Local Open Scope Z_scope.

(** ** The timers of a connected peer *)
Record timed (n : node) (q : N) (p : peer) : Prop := mk_timed {
  tm_reset : exists r, p_reset_to p = Some r /\ (forall t o, In (t, o) (n_out n) -> is_rx q o -> t + PEER_STALE_TIME <= r) /\
    (is_dynamic p = false -> exists t o, In (t, o) (n_out n) /\ is_rx q o /\ r = t + PEER_STALE_TIME);
  tm_keep : exists k, p_keep_to p = Some k /\ exists t o, In (t, o) (n_out n) /\ is_tx q o /\ k <= t + KEEPALIVE_TIMEOUT
}.
Definition tinv (n : node) : Prop := forall q p, find_id (n_peers n) q = Some p -> is_established p = true -> timed n q p.

Lemma tx_spec : forall q o, tx_out q o <-> is_tx q o.
Proof.
  intros q o. unfold is_tx. destruct o; cbn [tx_out]; split; intros H; try contradiction;
    try (destruct H as [(s0 & x0 & d0 & H) | [H | H]]; congruence).
  all: subst; first [left; do 3 eexists; reflexivity | right; left; reflexivity | right; right; reflexivity].
Qed.

(** same timers, other effects *)
Lemma timed_same : forall n n' q p p', timed n q p -> (exists l, n_out n' = l ++ n_out n /\ forall t o, In (t, o) l -> ~ is_rx q o) ->
  p_reset_to p' = p_reset_to p -> p_keep_to p' = p_keep_to p -> is_dynamic p' = is_dynamic p -> timed n' q p'.
Proof.
  intros n n' q p p' [(r & R1 & R2 & R3) (k & K1 & t1 & o1 & K2 & K3 & K4)] (l & El & Hl) E1 E2 E3. constructor.
  - exists r. rewrite E1, E3. split; [exact R1|]. split.
    + intros t o Hin Ho. rewrite El in Hin. apply in_app_or in Hin. destruct Hin as [Hin | Hin]; [exfalso; exact (Hl t o Hin Ho) | exact (R2 t o Hin Ho)].
    + intros Hd. destruct (R3 Hd) as (t & o & Hin & Ho & Er). exists t, o. split; [rewrite El; apply in_or_app; right; exact Hin | split; assumption].
  - exists k. rewrite E2. split; [exact K1|]. exists t1, o1. split; [rewrite El; apply in_or_app; right; exact K2 | split; assumption].
Qed.
Definition quiet_for (n n' : node) (q : N) : Prop := exists l, n_out n' = l ++ n_out n /\ forall t o, In (t, o) l -> ~ is_rx q o.
Lemma quiet_same : forall n n' q, n_out n' = n_out n -> quiet_for n n' q.
Proof. intros n n' q E. exists []. split; [exact E | intros t o []]. Qed.
Lemma quiet_one : forall n n' q o, n_out n' = (n_now n, o) :: n_out n -> ~ is_rx q o -> quiet_for n n' q.
Proof. intros n n' q o E H. exists [(n_now n, o)]. split; [exact E|]. intros t o' [X | []]. injection X as _ <-. exact H. Qed.

Lemma pstep_timed : forall P fl n p p' q, pstep P fl n p p' -> p_id p = q -> (is_established p = true -> timed n q p) -> is_established p' = true -> timed n q p'.
Proof.
  intros P fl n p p' q H Eq Ht He.
  assert (K : forall p1, is_established p = true -> p_reset_to p1 = p_reset_to p -> p_keep_to p1 = p_keep_to p -> is_dynamic p1 = is_dynamic p -> timed n q p1).
  { intros p1 Hp E1 E2 E3. eapply timed_same; [exact (Ht Hp) | apply quiet_same; reflexivity | exact E1 | exact E2 | exact E3]. }
  destruct H; unsched; try (apply K; first [exact He | reflexivity]; fail).
  - destruct (Ht He) as [(r & R) _]. constructor; [exists r; exact R|]. eexists. split; [reflexivity|].
    destruct (H He) as (o & Hin & Ho). exists (n_now n), o. rewrite Eq in Ho. split; [exact Hin|]. split; [apply tx_spec; exact Ho | lia].
  - destruct (Ht He) as [(r & R1 & R2 & R3) (k & Kk)]. constructor; [|exists k; exact Kk]. cbn [p_reset_to set_p_reset_to set_p_verify_to]. rewrite R1. cbn [oadvance].
    eexists. split; [reflexivity|]. split; [intros t o Hin Ho; specialize (R2 t o Hin Ho); lia|]. intros Hd.
    unfold is_dynamic in *. cbn in Hd. destruct (p_conf p); congruence.
  - unfold is_established in He. cbn in He. destruct s; congruence.
  - unfold is_established in He. cbn in He. rewrite H in He. discriminate.
  - apply K; try reflexivity; [exact He|]. unfold is_dynamic. cbn. destruct c, (p_conf p); congruence.
Qed.

Lemma plain_rx : forall P ev fl n q o, plain_out P ev fl n o -> ~ is_rx q o.
Proof. intros P ev fl n q o H [-> | ->]; contradiction. Qed.

Lemma tinv_nstep : forall P ev fl n n', nstep P ev fl n n' -> inv0 P n -> (forall t o, In (t, o) (n_out n) -> t <= n_now n) -> tinv n -> tinv n'.
Proof.
  intros P ev fl n n' H I Htime T. pose proof (wf_ids _ (i_wf _ _ I)) as Hi.
  assert (Same : forall n1, n_peers n1 = n_peers n -> (forall q, quiet_for n n1 q) -> tinv n1).
  { intros n1 Ep Ho q p Hp He. rewrite Ep in Hp. eapply timed_same; [exact (T q p Hp He) | apply Ho | reflexivity | reflexivity | reflexivity]. }
  (* one peer is changed and the others see nothing *)
  assert (Upd : forall n1 pid p f, n_peers n1 = upd_id (n_peers n) pid f -> find_id (n_peers n) pid = Some p -> p_id (f p) = p_id p ->
    (forall q, q <> pid -> quiet_for n n1 q) -> (is_established (f p) = true -> timed n1 pid (f p)) -> tinv n1).
  { intros n1 pid p f Ep Hf Ef Ho Hp q p' Hq He. rewrite Ep in Hq. eapply find_upd_cases in Hq; [|exact Hi | exact Hf | exact Ef].
    destruct Hq as [(Hne & Hq) | (-> & ->)]; [|exact (Hp He)]. eapply timed_same; [exact (T q p' Hq He) | exact (Ho q Hne) | reflexivity | reflexivity | reflexivity]. }
  destruct H; try (apply Same; [reflexivity | intros q; apply quiet_same; reflexivity]).
  - apply Same; [reflexivity|]. intros q. eapply quiet_one; [reflexivity | eapply plain_rx; exact H].
  - apply Same; [reflexivity|]. intros q. eapply quiet_one; [reflexivity | intros [X | X]; discriminate].
  - eapply Upd; [reflexivity | exact H0 | reflexivity | |].
    + intros q Hne. eapply quiet_one; [reflexivity|]. intros [X | X]; [injection X as X; congruence | discriminate].
    + intros He. destruct (T pid p H0 He) as [(r & R1 & R2 & R3) (k & K1 & t1 & o1 & K2 & K3)]. constructor.
      * eexists. split; [reflexivity|]. cbn [n_out set_n_out set_n_peers]. split.
        -- intros t o [X | Hin] Ho; [injection X as <- <-; lia|]. specialize (Htime t o Hin). unfold PEER_STALE_TIME. lia.
        -- intros _. exists (n_now n), (OSeen pid). split; [left; reflexivity|]. split; [left; reflexivity | reflexivity].
      * exists k. split; [exact K1|]. exists t1, o1. split; [right; exact K2 | exact K3].
  - eapply Upd; [reflexivity | exact H | apply (pstep_const _ _ _ _ _ H0) | intros q _; apply quiet_same; reflexivity|].
    intros He. pose proof (pstep_timed _ _ _ _ _ pid H0 (proj2 (find_id_in _ _ _ H)) (T pid p H) He) as [A B]. constructor; [exact A | exact B].
  - eapply Upd; [reflexivity | exact H | reflexivity | intros q _; eapply quiet_one; [reflexivity | intros [X | X]; discriminate]|].
    intros He. cbv zeta in *. destruct (T pid p H He) as [(r & R1 & R2 & R3) (k & K1 & t1 & o1 & K2 & K3)]. constructor.
    + cbn [p_reset_to set_p_reset_to set_p_valid_to]. rewrite R1. cbn [oadvance]. eexists. split; [reflexivity|]. split.
      * intros t o [X | Hin] Ho; [injection X as <- <-; destruct Ho; discriminate|]. specialize (R2 t o Hin Ho). lia.
      * intros Hd. unfold is_dynamic in *. cbn in Hd. destruct (p_conf p); congruence.
    + exists k. split; [exact K1|]. exists t1, o1. split; [right; exact K2 | exact K3].
  - eapply Upd; [reflexivity | exact H | destruct old; reflexivity | intros q _; eapply quiet_one; [reflexivity | intros [X | X]; discriminate]|].
    intros He. eapply timed_same; [apply (T pid p H); destruct old; exact He | eapply quiet_one; [reflexivity | intros [X | X]; discriminate] | | |]; destruct old; reflexivity.
  - assert (Q : forall q, quiet_for n (set_n_peers (upd_id (n_peers n) pid f)
       (set_n_eth (filter (fun e => negb match e_peer e with Some q => N.eqb q pid | None => false end) (n_eth n))
       (if is_established p then set_n_out ((n_now n, ODown pid) :: n_out n) n else n))) q).
    { intros q. destruct (is_established p); [eapply quiet_one; [reflexivity | intros [X | X]; discriminate] | apply quiet_same; reflexivity]. }
    eapply Upd with (pid := pid) (p := p) (f := f); [reflexivity | exact H | rewrite H0; apply (reset_fn_const P (set_p_sock None p)) | intros q _; apply Q|].
    intros He. rewrite H0 in He. unfold reset_fn, is_established in He. cbv zeta in He. destruct (_ || _ || _)%bool in He; discriminate.
  - intros q p' Hq He. cbn [n_peers set_n_peers] in Hq. apply find_id_filter in Hq. eapply timed_same; [exact (T q p' (proj1 Hq) He) | apply quiet_same; reflexivity | | |]; reflexivity.
  - intros q p' Hq He. cbn [n_peers set_n_peers set_n_next_id] in Hq. apply find_id_app in Hq. destruct Hq as [Hq | [-> _]]; [|discriminate].
    eapply timed_same; [exact (T q p' Hq He) | apply quiet_same; reflexivity | | |]; reflexivity.
  - intros q p' Hq He. cbn [n_peers set_n_peers] in Hq.
    rewrite find_id_map in Hq by (intros y; destruct (pre_reload_const y) as (c & -> & _); reflexivity).
    destruct (find_id (n_peers n) q) as [y|] eqn:Hy; [|discriminate]. cbn [option_map] in Hq. injection Hq as <-.
    assert (X : p_reset_to (pre_reload y) = p_reset_to y /\ p_keep_to (pre_reload y) = p_keep_to y /\ is_established (pre_reload y) = is_established y /\ is_dynamic (pre_reload y) = is_dynamic y).
    { unfold pre_reload. destruct (is_dynamic y) eqn:Ed; [repeat split; assumption|]. destruct (negb (p_dir y)); [repeat split; try exact (eq_sym Ed)|].
      destruct (p_conf y) eqn:Ec; repeat split; try exact Ed; reflexivity. }
    destruct X as (X1 & X2 & X3 & X4). rewrite X3 in He. eapply timed_same; [exact (T q y Hy He) | apply quiet_same; reflexivity | exact X1 | exact X2 | exact X4].
  - eapply Upd; [reflexivity | exact H0 | cbv beta; unsup; reflexivity | intros q _; eapply quiet_one; [reflexivity | intros [X | X]; discriminate]|].
    cbv beta. intros He. eapply timed_same; [apply (T pid p H0); revert He; unsup; exact (fun x => x) | eapply quiet_one; [reflexivity | intros [X | X]; discriminate] | | |]; unsup; reflexivity.
  - eapply Upd; [reflexivity | exact H0 | cbv beta; unsched; reflexivity | |].
    + intros q Hne. eapply quiet_one; [reflexivity|]. intros [X | X]; [discriminate | injection X as X; congruence].
    + intros _. cbv beta. unsched. constructor.
      * eexists. split; [reflexivity|]. cbn [n_out set_n_out set_n_peers]. split.
        -- intros t o [X | Hin] Ho; [injection X as <- <-; lia|]. specialize (Htime t o Hin). unfold PEER_STALE_TIME. lia.
        -- intros _. exists (n_now n), (OUp pid). split; [left; reflexivity|]. split; [right; reflexivity | reflexivity].
      * eexists. split; [reflexivity|]. exists (n_now n), (OUp pid). split; [left; reflexivity|]. split; [right; right; reflexivity | lia].
Qed.

Lemma reachable_tinv : forall P n, reachable P n -> tinv n.
Proof.
  intros P n R.
  assert (A : tinv n /\ forall t o, In (t, o) (n_out n) -> t <= n_now n); [|apply A].
  refine (reachable_ind P (fun n => tinv n /\ forall t o, In (t, o) (n_out n) -> t <= n_now n) _ _ _ n R).
  - intros now orc. split; [intros q p Hq; discriminate | intros t o []].
  - intros t m I Ht [A B]. split; [|intros t1 o Hin; cbn [n_now set_n_now]; specialize (B t1 o Hin); lia].
    intros q p Hq He. destruct (A q p Hq He) as [A1 A2]. constructor; assumption.
  - intros ev fl a b H I [A B]. split; [eapply tinv_nstep; eassumption|]. intros t o Hin. rewrite (nstep_now _ _ _ _ _ H).
    destruct (nstep_out _ _ _ _ _ H) as [E | (o' & E)]; rewrite E in Hin; [exact (B t o Hin)|].
    destruct Hin as [X | Hin]; [injection X as <- _; lia | exact (B t o Hin)].
Qed.

(** ** The task of a connected peer *)
Definition due (n : node) (q : N) : Prop := forall p, find_id (n_peers n) q = Some p -> is_established p = true ->
  exists tk, p_task p = Some tk /\ (forall r, p_reset_to p = Some r -> tk <= r) /\ (forall k, p_keep_to p = Some k -> tk <= k).

Lemma sched_due : forall p r, p_reset_to p = Some r ->
  exists tk, p_task (sched p) = Some tk /\ (forall r, p_reset_to p = Some r -> tk <= r) /\ (forall k, p_keep_to p = Some k -> tk <= k).
Proof.
  intros p r Er. unfold sched. rewrite Er.
  assert (X : exists t, omin (Some r) (omin (p_keep_to p) (p_next_hs p)) = Some t /\ t <= r /\ forall k, p_keep_to p = Some k -> t <= k).
  { destruct (p_keep_to p) as [k|], (p_next_hs p) as [h|]; cbn [omin]; eexists; (split; [reflexivity|]; split; [lia|]; intros k' E; try discriminate; injection E as <-; lia). }
  destruct X as (t & -> & X1 & X2). destruct (p_task p) as [t'|] eqn:Et; [destruct (t <? t') eqn:El|]; cbn [p_task set_p_task];
    [exists t | exists t' | exists t]; (split; [first [reflexivity | assumption]|]; split; [intros r' E; injection E as <-; lia | intros k Ek; specialize (X2 k Ek); lia]).
Qed.

Lemma pchange_due : forall P ev fl n p p', pchange P ev fl n p p' -> f_tk fl (p_id p) = false ->
  (is_established p = true -> exists tk, p_task p = Some tk /\ (forall r, p_reset_to p = Some r -> tk <= r) /\ (forall k, p_keep_to p = Some k -> tk <= k)) ->
  (is_established p = true -> exists r k, p_reset_to p = Some r /\ p_keep_to p = Some k /\ k <= n_now n + KEEPALIVE_TIMEOUT) ->
  is_established p' = true -> exists tk, p_task p' = Some tk /\ (forall r, p_reset_to p' = Some r -> tk <= r) /\ (forall k, p_keep_to p' = Some k -> tk <= k).
Proof.
  intros P ev fl n p p' H Hk D T He.
  assert (K : forall p1, is_established p = true -> p_task p1 = p_task p -> p_reset_to p1 = p_reset_to p -> p_keep_to p1 = p_keep_to p ->
    exists tk, p_task p1 = Some tk /\ (forall r, p_reset_to p1 = Some r -> tk <= r) /\ (forall k, p_keep_to p1 = Some k -> tk <= k)).
  { intros p1 Hp E1 E2 E3. rewrite E1, E2, E3. exact (D Hp). }
  destruct H as [|p' Hs| | | | | | |]; try (apply K; first [exact He | reflexivity]; fail).
  - destruct Hs; try (apply K; first [exact He | reflexivity]; fail).
    + destruct (D He) as (tk & D1 & D2 & D3). destruct (T He) as (r & k & T1 & T2 & T3). exists tk. split; [exact D1|]. split; [exact D2|].
      intros k' E. cbn in E. injection E as <-. specialize (D3 k T2). lia.
    + assert (He0 : is_established p = true) by (revert He; unsched; exact (fun x => x)).
      destruct (T He0) as (r & k & T1 & T2 & T3). destruct (sched_due p r T1) as (tk & X1 & X2 & X3). exists tk. split; [exact X1|].
      destruct (sched_is p) as [t ->]. split; assumption.
    + congruence.
    + destruct (D He) as (tk & D1 & D2 & D3). destruct (T He) as (r & k & T1 & T2 & T3). exists tk. split; [exact D1|]. split; [|exact D3].
      cbn [p_reset_to set_p_reset_to]. rewrite T1. cbn [oadvance]. intros r' E. injection E as <-. specialize (D2 r T1). lia.
    + unfold is_established in He. cbn in He. destruct s; congruence.
    + unfold is_established in He. cbn in He. rewrite H in He. discriminate.
  - destruct (D He) as (tk & D1 & D2 & D3). destruct (T He) as (r & k & T1 & T2 & T3). exists tk. split; [exact D1|]. split; [|exact D3].
    intros r' E. cbn in E. injection E as <-. specialize (D3 k T2). unfold KEEPALIVE_TIMEOUT, PEER_STALE_TIME in *. lia.
  - destruct (D He) as (tk & D1 & D2 & D3). destruct (T He) as (r & k & T1 & T2 & T3). exists tk. split; [exact D1|]. split; [|exact D3].
    cbv zeta. cbn [p_reset_to set_p_reset_to]. rewrite T1. cbn [oadvance]. intros r' E. injection E as <-. specialize (D2 r T1). lia.
  - cbv zeta in *. apply K; destruct old; first [exact He | reflexivity].
  - unfold reset_fn, is_established in He. cbv zeta in He. destruct (_ || _ || _)%bool in He; discriminate.
  - assert (X : is_established (pre_reload p) = is_established p /\ p_task (pre_reload p) = p_task p /\ p_reset_to (pre_reload p) = p_reset_to p /\ p_keep_to (pre_reload p) = p_keep_to p).
    { unfold pre_reload. destruct (is_dynamic p); [repeat split|]. destruct (negb (p_dir p)); [repeat split|]. destruct (p_conf p); repeat split. }
    destruct X as (X1 & X2 & X3 & X4). rewrite X1 in He. apply K; assumption.
  - cbv zeta in *. apply K; [revert He; unsup; exact (fun x => x)| | |]; unsup; reflexivity.
  - edestruct sched_due as (tk & X1 & X2 & X3); [|exists tk; split; [exact X1|]].
    { reflexivity. }
    revert X2 X3. unsched. intros X2 X3. split; assumption.
Qed.

Lemma due_nstep : forall P ev fl n n' q, nstep P ev fl n n' -> f_tk fl q = false -> inv0 P n -> (forall t o, In (t, o) (n_out n) -> t <= n_now n) -> tinv n -> due n q -> due n' q.
Proof.
  intros P ev fl n n' q H Hk I Ht T D p' Hp' He'.
  destruct (nstep_find _ _ _ _ _ _ _ H (wf_ids _ (i_wf _ _ I)) Hp') as [(p & Hp & Hc) | (_ & _ & _ & c & st & -> & _)]; [|discriminate].
  eapply pchange_due; [exact Hc | rewrite (proj2 (find_id_in _ _ _ Hp)); exact Hk | intros He; exact (D p Hp He) | | exact He'].
  intros He. destruct (T q p Hp He) as [(r & R1 & _) (k & K1 & t & o & Hin & _ & K2)]. exists r, k. split; [exact R1|]. split; [exact K1|]. specialize (Ht t o Hin). lia.
Qed.

(** the invariants used below, in the middle of an event *)
Record mid (P : params) (n : node) : Prop := mk_mid { md_inv : inv0 P n; md_time : forall t o, In (t, o) (n_out n) -> t <= n_now n; md_t : tinv n; md_u : uinv n }.
Lemma mid_nstep : forall P ev fl n n', nstep P ev fl n n' -> mid P n -> mid P n'.
Proof.
  intros P ev fl n n' H [I Ht T U]. constructor; [eapply inv0_nstep; eassumption | | eapply tinv_nstep; eassumption | eapply uinv_nstep; [exact H | apply I | exact U]].
  intros t o Hin. rewrite (nstep_now _ _ _ _ _ H).
  destruct (nstep_out _ _ _ _ _ H) as [E | (o' & E)]; rewrite E in Hin; [exact (Ht t o Hin)|].
  destruct Hin as [X | Hin]; [injection X as <- _; lia | exact (Ht t o Hin)].
Qed.
Lemma mid_steps : forall P ev fl n n', steps P ev fl n n' -> mid P n -> mid P n'.
Proof. intros P ev fl n n' H. induction H as [|n n1 n2 Hs _ IH]; intros M; [exact M | apply IH; eapply mid_nstep; eassumption]. Qed.
Lemma due_steps : forall P ev fl n n' q, steps P ev fl n n' -> f_tk fl q = false -> mid P n -> due n q -> due n' q.
Proof.
  intros P ev fl n n' q H Hk. induction H as [|n n1 n2 Hs _ IH]; intros M D; [exact D|]. apply IH; [eapply mid_nstep; eassumption|].
  eapply due_nstep; [exact Hs | exact Hk | apply M | apply M | apply M | exact D].
Qed.
Lemma mid_tick : forall P n dt, reachable P n -> mid P (tick dt n).
Proof.
  intros P n dt R. pose proof (reachable_inv P n R) as I. destruct (reachable_sinv P n R) as [Tm _ _ _ _ _ _ _ _ _ _]. constructor.
  - apply (inv_tick P (n_now n + Z.of_N dt) n I).
  - intros t o Hin. cbn [tick n_now set_n_now]. specialize (Tm t o Hin). lia.
  - intros q p Hq He. destruct (reachable_tinv P n R q p Hq He) as [A B]. constructor; assumption.
  - destruct (reachable_uinv P n R) as [A B]. split; [exact A | exact B].
Qed.

(** ** What the task of a peer does *)
Lemma steps_down : forall P ev fl n n' t pid, steps P ev fl n n' -> newly n n' t (ODown pid) -> f_rs fl pid = true.
Proof.
  intros P ev fl n n' t pid S Hn. destruct (steps_new _ _ _ _ _ _ _ S Hn) as (m1 & m2 & _ & Hs & _ & Eo & _). revert Eo. clear - Hs.
  destruct Hs; intros E; outcbn; try (exfalso; exact (cons_self _ _ _ E)); try (injection E as _ E; subst; try discriminate; try contradiction).
  destruct (is_established p); [injection E as _ <-; assumption | exfalso; exact (cons_self _ _ _ E)].
Qed.
Lemma est_stays : forall P ev fl n n' pid p, steps P ev fl n n' -> f_rs fl pid = false -> inv0 P n -> uinv n ->
  find_id (n_peers n) pid = Some p -> is_established p = true -> exists p', find_id (n_peers n') pid = Some p' /\ is_established p' = true.
Proof.
  intros P ev fl n n' pid p S Hr I U Hf He. apply (uinv_steps _ _ _ _ _ S I U). destruct (out_steps _ _ _ _ _ S) as [l El]. rewrite El.
  apply up_kept; [apply U; exists p; split; assumption|]. intros t Hin.
  rewrite (steps_down P ev fl n n' t pid S) in Hr; [discriminate | exists l; split; assumption].
Qed.
Lemma unest_up : forall n pid, uinv n -> unest pid n -> up (n_out n) pid = false.
Proof.
  intros n pid U Hu. destruct (up (n_out n) pid) eqn:E; [|reflexivity]. apply U in E. destruct E as (p & Hp & He). rewrite (Hu p Hp) in He. discriminate.
Qed.
Lemma up_unest : forall n pid, uinv n -> up (n_out n) pid = false -> unest pid n.
Proof.
  intros n pid U Hu p Hp. destruct (is_established p) eqn:E; [|reflexivity]. rewrite (proj2 (proj2 U pid)) in Hu; [discriminate | exists p; split; assumption].
Qed.

Lemma send_retry_out : forall pid x n n', send_retry (Some pid) n = Ok (x, n') -> exists l, n_out n' = l ++ n_out n.
Proof.
  intros pid x n n' H. exists []. cbn [app]. unfold send_retry in H. bind H as retry m H1. apply flip_same in H1. destruct H1 as [l ->].
  unfold when in H. destruct retry; [|apply ret_ok in H; destruct H as [_ ->]; reflexivity].
  bind H as p m H1. apply rd_ok in H1. destruct H1 as [_ ->]. destruct (p_next_hs p); [apply ret_ok in H; destruct H as [_ ->]; reflexivity|].
  unfold schedule_handshake_default in H. bind H as d m H1. apply default_rand_same in H1. destruct H1 as [l2 ->].
  unfold schedule_handshake in H. bind H as u m H1. unfold set_next_handshake in H1. bind H1 as t m2 H2. apply gets_ok in H2. destruct H2 as [-> ->].
  apply wr_ok in H1. destruct H1 as (p1 & _ & ->). unfold schedule_peer_task in H. apply wr_ok in H. destruct H as (p2 & _ & ->). reflexivity.
Qed.

Section Task.
Variables (P : params) (ev : event).

Lemma send_handshake_est : forall pid ri x n n' p, send_handshake P pid ri n = Ok (x, n') -> inv P n ->
  find_id (n_peers n) pid = Some p -> is_established p = true -> to P ev fq n n'.
Proof.
  intros pid ri x n n' p H I Hp He. unfold send_handshake in H. bind H as p0 m H1. apply rd_ok in H1. destruct H1 as [Hf ->].
  rewrite Hp in Hf. injection Hf as <-. rewrite He in H. cbn [negb] in H. bind H as go m H1. apply ret_ok in H1. destruct H1 as [<- ->]. cbn [negb] in H.
  bind H as p1 m1 H2. apply rd_ok in H2. destruct H2 as [Hf1 ->]. rewrite Hp in Hf1. injection Hf1 as <-.
  bind H as now m1 H2. apply gets_ok in H2. destruct H2 as [-> ->].
  destruct (p_sock p) as [sk|]; [|apply ret_ok in H; destruct H as [_ ->]; apply to_refl; exact I].
  destruct (p_addr p) as [a|]; [|apply ret_ok in H; destruct H as [_ ->]; apply to_refl; exact I].
  destruct (_ && _)%bool; [apply ret_ok in H; destruct H as [_ ->]; apply to_refl; exact I|].
  bind H as u m2 H2. apply (wr_to P ev) in H2; [|exact I | intros q Hq; apply ps_timer'; cbv beta;
    exists (p_next_hs q), (p_next_remote q), (n_now n + MIN_HANDSHAKE_INTERVAL), (p_addr q), (p_iface q); destruct q; reflexivity].
  bind H as u3 m3 H3. apply ret_ok in H. destruct H as [_ ->].
  apply (handshake_init_to P ev) in H3; [|apply H2 | eapply act_quiet; [exact H2 | exact I | eapply est_act; eassumption]].
  tchain.
Qed.
Lemma task_handshake_est : forall pid x n n' p, task_handshake P pid n = Ok (x, n') -> inv P n -> uinv n ->
  find_id (n_peers n) pid = Some p -> is_established p = true -> to P ev fq n n'.
Proof.
  intros pid x n n' p0 H I U Hp0 He0. unfold task_handshake in H.
  bind H as d m H1. apply (default_rand_to P ev) in H1; [|exact I].
  bind H as u m2 H2. apply (set_next_handshake_to P ev) in H2; [|apply H1].
  assert (T12 : to P ev fq n m2) by tchain.
  destruct (est_stays _ _ _ _ _ _ _ (to_steps _ _ _ _ _ T12) eq_refl (i_0 _ _ I) U Hp0 He0) as (p2 & Hp2 & He2).
  pose proof (uinv_steps _ _ _ _ _ (to_steps _ _ _ _ _ T12) (i_0 _ _ I) U) as U2.
  bind H as p m3 H3. apply rd_ok in H3. destruct H3 as [Hf ->]. rewrite Hp2 in Hf. injection Hf as <-.
  bind H as l m3 H3. apply gets_ok in H3. destruct H3 as [-> ->]. rewrite He2 in H.
  destruct (negb _).
  { apply (wr_to P ev) in H; [tchain | apply H2 | intros q Hq; apply ps_timer'; do 5 eexists; reflexivity]. }
  assert (Hm : forall ri, (send_handshake P pid ri ;;
        p <- rd pid ;;
        if is_established p then ret tt
        else
          wr pid (set_p_state Handshaking) ;;
          match ri with
          | None => undefined
          | Some i =>
              r <- rd_remote pid i ;;
              wr pid (set_remote i (set_r_cur (S (r_cur r)))) ;;
              if Nat.ltb (S (r_cur r)) (length (r_addrs r)) then ret tt
              else
                wr pid (fun p => set_p_next_remote (match p_next_remote p with Some i => Some (S i) | None => Some 0%nat end) p) ;;
                task_handshake_next P pid
          end) m2 = Ok (x, n') -> to P ev fq n n').
  { clear H. intros ri H. bind H as b m3 H3. eapply send_handshake_est in H3; [|apply H2 | exact Hp2 | exact He2].
    destruct (est_stays _ _ _ _ _ _ _ (to_steps _ _ _ _ _ H3) eq_refl (i_0 _ _ (proj2 H2)) U2 Hp2 He2) as (p3 & Hp3 & He3).
    bind H as p4 m4 H4. apply rd_ok in H4. destruct H4 as [Hf4 ->]. rewrite Hp3 in Hf4. injection Hf4 as <-. rewrite He3 in H.
    apply ret_ok in H. destruct H as [_ ->]. tchain. }
  destruct (p_next_remote p2) as [i|]; [exact (Hm (Some i) H) | exact (Hm None H)].
Qed.

Lemma protocol_send_run : forall pid x n n' p, protocol_send P pid n = Ok (x, n') -> inv P n ->
  find_id (n_peers n) pid = Some p -> is_established p = true ->
  (sess_valid (n_now n) (p_sess p) = true /\ to P ev fq n n' /\ exists o, newly n n' (n_now n) o /\ tx_out pid o /\ o <> OUp pid) \/
  (sess_valid (n_now n) (p_sess p) = false /\ to P ev (fr pid) n n' /\ unest pid n').
Proof.
  intros pid x n n' p H I Hp He. pose proof (protocol_send_to P ev pid x n n' H I) as [T0 _].
  unfold protocol_send in H. bind H as p0 m H1. apply rd_ok in H1. destruct H1 as [Hf ->].
  rewrite Hp in Hf. injection Hf as <-. rewrite He in H. cbn [negb] in H.
  bind H as ok m H1. pose proof (check_session_to P ev _ _ _ _ H1 I) as (T1 & Hok & Hno).
  destruct ok; cbn [negb] in H.
  2:{ right. apply ret_ok in H. destruct H as [_ ->]. split; [|split; [exact T0 | exact (Hno eq_refl)]].
      unfold check_session in H1. bind H1 as q m1 H2. apply rd_ok in H2. destruct H2 as [Hq ->]. rewrite Hp in Hq. injection Hq as <-.
      bind H1 as now m1 H2. apply gets_ok in H2. destruct H2 as [-> ->]. destruct (sess_valid (n_now n) (p_sess p)); [|reflexivity].
      apply ret_ok in H1. destruct H1 as [X _]. discriminate. }
  left. destruct (Hok eq_refl) as (-> & p0 & Hf0 & Hv). rewrite Hp in Hf0. injection Hf0 as <-. split; [exact Hv|].
  bind H as u m H2. pose proof (check_session_refresh_keeps _ _ _ _ H2) as (p1 & p2 & Hp1 & Hp2 & Eo & _ & En & s & s' & Es & Es' & Est & _).
  pose proof (check_session_refresh_to P ev _ _ _ _ H2 I) as T2. rewrite Hp in Hp1. injection Hp1 as <-.
  bind H as p3 m3 H3. apply rd_ok in H3. destruct H3 as [Hf3 ->]. rewrite Hp2 in Hf3. injection Hf3 as <-.
  bind H as now m3 H3. apply gets_ok in H3. destruct H3 as [-> ->]. rewrite Es' in H.
  set (old := (m_initiator (ss_state s') && sess_valid (n_now m) (p_old p2))%bool) in H.
  assert (A : to P ev fq m n' /\ sent_at n' pid).
  { eapply session_send_to; [exact H | apply T2|]. intros q sq Hq Hsq. rewrite Hp2 in Hq. injection Hq as <-.
    destruct old eqn:E; unfold old in E.
    - apply andb_prop in E. destruct E as [_ E]. unfold sess_valid in E. rewrite Hsq in E. exact E.
    - rewrite Es' in Hsq. injection Hsq as <-. rewrite Est, En. unfold sess_valid in Hv. rewrite Es in Hv. exact Hv. }
  destruct A as [A1 _]. split; [tchain|].
  (* the packet of this call *)
  assert (B : exists o, newly m n' (n_now m) o /\ tx_out pid o /\ o <> OUp pid).
  { clear - H I T2. unfold session_send in H. bind H as q m1 H1. apply rd_ok in H1. destruct H1 as [Hq ->].
    destruct (if old then p_old q else p_sess q) as [s|] eqn:Es; [|discriminate].
    bind H as failed m1 H1. pose proof (flip_to P ev _ _ _ H1 (proj2 T2)) as T1. apply flip_same in H1. destruct H1 as [l ->].
    destruct failed.
    { apply emit_ok in H. subst n'. exists (OEncFail pid). split; [|split; [reflexivity | discriminate]].
      exists [(n_now m, OEncFail pid)]. split; [reflexivity | left; reflexivity]. }
    cbv zeta in H. bind H as u2 m2 H2. apply wr_ok in H2. destruct H2 as (q2 & _ & ->).
    bind H as u3 m3 H3. apply send_packet_ok in H3. destruct H3 as (sk & dst & _ & Edst & _ & H3).
    assert (O3 : exists l, n_out m3 = l ++ (n_now m, OData pid (ss_id s) (match ss_state s with MCommon c => Some (s_send c) | MNull _ => None end) dst) :: n_out m).
    { apply send_retry_out in H3. exact H3. }
    assert (O4 : exists l, n_out n' = l ++ n_out m3).
    { unfold when in H. destruct (negb _); [|apply ret_ok in H; destruct H as [_ ->]; exists []; reflexivity].
      unfold clear_keepalive in H. bind H as t m4 H4. apply gets_ok in H4. destruct H4 as [-> ->].
      apply wr_ok in H. destruct H as (q4 & _ & ->). exists []. reflexivity. }
    destruct O3 as [l3 O3]. destruct O4 as [l4 O4]. exists (OData pid (ss_id s) (match ss_state s with MCommon c => Some (s_send c) | MNull _ => None end) dst). split; [|split; [|discriminate]].
    - exists (l4 ++ l3 ++ [(n_now m, OData pid (ss_id s) (match ss_state s with MCommon c => Some (s_send c) | MNull _ => None end) dst)]).
      split; [rewrite O4, O3, <- !app_assoc; reflexivity|]. apply in_or_app. right. apply in_or_app. right. left. reflexivity.
    - reflexivity. }
  destruct B as (o & Hn & Ho). exists o. split; [|exact Ho]. rewrite <- En. eapply newly_back; [eapply out_steps; apply T2 | exact Hn].
Qed.


(** all the cases *)
Lemma task_run : forall pid x n n' p, handle_task P pid n = Ok (x, n') -> inv P n -> mid P n ->
  find_id (n_peers n) pid = Some p -> is_established p = true ->
  (otimed_out (n_now n) (p_reset_to p) = true /\ unest pid n') \/
  (otimed_out (n_now n) (p_reset_to p) = false /\
   (unest pid n' /\ otimed_out (n_now n) (p_keep_to p) = true /\ sess_valid (n_now n) (p_sess p) = false \/
    (forall t, ~ newly n n' t (ODown pid)) /\ due n' pid /\
    (otimed_out (n_now n) (p_keep_to p) = true -> exists o, newly n n' (n_now n) o /\ tx_out pid o /\ o <> OUp pid))).
Proof.
  intros pid x n n' p H I M Hp He. pose proof (est_act _ _ _ Hp He) as Ha. pose proof (act_enabled P n pid I Ha) as Hen. unfold handle_task in H.
  bind H as u m H1.
  assert (T1 : to P ev (fk pid) n m).
  { apply to_still; [|split; reflexivity | reflexivity | exact I]. eapply wr_steps; [exact H1|]. intros q Hq. apply ps_untask.
    cbn. rewrite (proj2 (find_id_in _ _ _ Hq)). apply N.eqb_refl. }
  apply wr_ok in H1. destruct H1 as (p0 & _ & Em).
  assert (Hpm : find_id (n_peers m) pid = Some (set_p_task None p)).
  { rewrite Em. cbn [n_peers set_n_peers]. refine (find_id_upd_same (n_peers n) pid (set_p_task None) p _ Hp). intros q. reflexivity. }
  assert (Enow : n_now m = n_now n) by (rewrite Em; reflexivity). clear Em p0.
  pose proof (to_en _ _ _ _ _ pid T1 eq_refl I Hen) as He1.
  bind H as p1 m2 H2. apply rd_ok in H2. destruct H2 as [Hf ->]. rewrite Hpm in Hf. injection Hf as <-.
  bind H as now m2 H2. apply gets_ok in H2. destruct H2 as [-> ->]. rewrite Enow in H. cbn [p_reset_to p_keep_to set_p_task] in H.
  destruct (otimed_out (n_now n) (p_reset_to p)) eqn:Er.
  { left. split; [reflexivity|]. destruct (is_dynamic (set_p_task None p)).
    - apply peer_delete_gone in H. intros q Hq. congruence.
    - eapply (peer_reset_unest P ev); [exact H | apply T1]. }
  right. split; [reflexivity|]. bind H as u3 m3 H3.
  assert (Md : mid P m) by (eapply mid_steps; [apply T1 | exact M]).
  assert (C3 : to P ev fc m m3 /\ ((to P ev fq m m3 /\ (otimed_out (n_now n) (p_keep_to p) = true -> exists o, newly m m3 (n_now n) o /\ tx_out pid o /\ o <> OUp pid)) \/
     (unest pid m3 /\ otimed_out (n_now n) (p_keep_to p) = true /\ sess_valid (n_now n) (p_sess p) = false))).
  { unfold when in H3. destruct (otimed_out (n_now n) (p_keep_to p)).
    2:{ apply ret_ok in H3. destruct H3 as [_ ->]. split; [apply to_refl; apply T1|]. left. split; [apply to_refl; apply T1 | discriminate]. }
    bind H3 as u4 m4 H4. pose proof (protocol_send_to P ev _ _ _ _ H4 (proj2 T1)) as [T4 S4].
    pose proof (protocol_send_run _ _ _ _ _ H4 (proj2 T1) Hpm He) as R4. rewrite Enow in R4. cbn [p_sess set_p_task] in R4.
    apply (clear_keepalive_to P ev) in H3; [|apply T4 | exact S4]. split; [tchain|].
    destruct R4 as [(V & Tq & o & Hn & Ho) | (V & _ & Hu)].
    - left. split; [tchain|]. intros _. exists o. split; [|exact Ho].
      eapply newly_front; [eapply out_steps; apply Tq | eapply out_steps; apply H3 | exact Hn].
    - right. split; [|split; [reflexivity | exact V]]. eapply unest_steps; [apply H3 | reflexivity | apply T4 | exact Hu]. }
  destruct C3 as [T3 C3]. pose proof (to_en _ _ _ _ _ pid T3 eq_refl (proj2 T1) He1) as He3.
  assert (M3 : mid P m3) by (eapply mid_steps; [apply T3 | exact Md]).
  bind H as p4 m4 H4. apply rd_ok in H4. destruct H4 as [Hf4 ->].
  bind H as u5 m5 H5.
  assert (T5 : to P ev fc m3 m5).
  { unfold when in H5. destruct (otimed_out _ (p_next_hs p4)); [eapply task_handshake_to; [exact H5 | apply T3 | exact He3] | apply ret_ok in H5; destruct H5 as [_ ->]; apply to_refl; apply T3]. }
  pose proof (to_en _ _ _ _ _ pid T5 eq_refl (proj2 T3) He3) as He5.
  pose proof (schedule_peer_task_to P ev _ _ _ _ H (proj2 T5) (act_en _ _ _ (proj2 T5) He5)) as T6.
  destruct C3 as [(Tq & Hsent) | (Hu & C)].
  2:{ left. split; [|exact C]. eapply unest_steps; [apply T6 | reflexivity | apply T5|]. eapply unest_steps; [apply T5 | reflexivity | apply T3 | exact Hu]. }
  right.
  destruct (est_stays _ _ _ _ _ _ _ (to_steps _ _ _ _ _ Tq) eq_refl (i_0 _ _ (proj2 T1)) (md_u _ _ Md) Hpm He) as (p3 & Hp3 & He3').
  rewrite Hf4 in Hp3. injection Hp3 as <-.
  assert (T5q : to P ev fq m3 m5).
  { unfold when in H5. destruct (otimed_out _ (p_next_hs p4)); [eapply task_handshake_est; [exact H5 | apply T3 | apply M3 | exact Hf4 | exact He3'] | apply ret_ok in H5; destruct H5 as [_ ->]; apply to_refl; apply T3]. }
  destruct (est_stays _ _ _ _ _ _ _ (to_steps _ _ _ _ _ T5q) eq_refl (i_0 _ _ (proj2 T3)) (md_u _ _ M3) Hf4 He3') as (p5 & Hp5 & He5').
  assert (Tall : to P ev (fk pid) n n') by tchain.
  split; [intros t Hn; pose proof (steps_down _ _ _ _ _ _ _ (to_steps _ _ _ _ _ Tall) Hn); discriminate|]. split.
  - intros p' Hp' Hest'. unfold schedule_peer_task in H. apply wr_ok in H. destruct H as (p6 & Hp6 & ->). rewrite Hp5 in Hp6. injection Hp6 as <-.
    cbn [n_peers set_n_peers] in Hp'.
    assert (Ef : find_id (upd_id (n_peers m5) pid sched) pid = Some (sched p5)).
    { refine (find_id_upd_same (n_peers m5) pid sched p5 _ Hp5). intros q. unsched. reflexivity. }
    change (find_id (upd_id (n_peers m5) pid sched) pid = Some p') in Hp'. rewrite Ef in Hp'. injection Hp' as <-.
    assert (M5 : mid P m5) by (eapply mid_steps; [apply T5 | exact M3]).
    destruct (md_t _ _ M5 pid p5 Hp5 He5') as [(r & R1 & _) _]. destruct (sched_due p5 r R1) as (tk & X1 & X2 & X3). exists tk. split; [exact X1|].
    destruct (sched_is p5) as [t ->]. split; assumption.
  - intros Hk. destruct (Hsent Hk) as (o & Hn & Ho). exists o. split; [|exact Ho].
    eapply newly_back; [eapply out_steps; apply T1|]. eapply newly_front; [eapply out_steps; apply Tq | | exact Hn].
    eapply out_steps. eapply steps_trans; [apply T5q | apply T6].
Qed.

End Task.

(** ** The task of a connected peer is always scheduled in time *)
Lemma task_event : forall P n dt pid n', handles P n dt (EvTask pid) n' ->
  match find_id (n_peers n) pid with
  | Some p => if otimed_out (n_now n + Z.of_N dt) (p_task p) then handle_task P pid (tick dt n) = Ok (tt, n') else n' = tick dt n
  | None => n' = tick dt n
  end.
Proof.
  intros P n dt pid n' H. unfold handles, step in H. bind H as u m H1. apply modn_ok in H1. cbn [fst snd] in *. subst m.
  unfold handle in H. bind H as l m H1. apply gets_ok in H1. destruct H1 as [-> ->]. bind H as now m H1. apply gets_ok in H1. destruct H1 as [-> ->].
  change (n_peers (set_n_now (n_now n + Z.of_N dt) n)) with (n_peers n) in H. change (n_now (set_n_now (n_now n + Z.of_N dt) n)) with (n_now n + Z.of_N dt) in H.
  destruct (find_id (n_peers n) pid) as [p|]; [|apply ret_ok in H; exact (proj2 H)]. unfold when in H.
  destruct (otimed_out _ _); [exact H | apply ret_ok in H; exact (proj2 H)].
Qed.

Lemma due_event : forall P n dt ev n' q, reachable P n -> handles P n dt ev n' -> due n q -> due n' q.
Proof.
  intros P n dt ev n' q R H D. pose proof (reachable_inv P n R) as I. pose proof (handles_steps P n dt ev n' H I) as [I1 [[S _] _]].
  pose proof (mid_tick P n dt R) as M. assert (D1 : due (tick dt n) q) by (intros p Hp He; exact (D p Hp He)).
  destruct (f_tk (fl_of ev) q) eqn:Ek; [|eapply due_steps; eassumption].
  destruct ev as [| | |pid| | | |]; try discriminate. cbn [fl_of ft f_tk] in Ek. apply N.eqb_eq in Ek. subst q.
  pose proof (task_event P n dt pid n' H) as T. destruct (find_id (n_peers n) pid) as [p|] eqn:Hp; [|rewrite T; exact D1].
  destruct (otimed_out _ _); [|rewrite T; exact D1]. destruct (is_established p) eqn:He.
  - assert (Hu : unest pid n' -> due n' pid) by (intros Hu p' Hp' He'; rewrite (Hu p' Hp') in He'; discriminate).
    destruct (task_run P (EvTask pid) _ _ _ _ p T I1 M Hp He) as [(_ & X) | (_ & [(X & _) | (_ & X & _)])]; [exact (Hu X) | exact (Hu X) | exact X].
  - intros p' Hp' He'. assert (X : unest pid n'); [|rewrite (X p' Hp') in He'; discriminate].
    eapply unest_steps; [exact S | reflexivity | apply I1|]. intros y Hy. change (find_id (n_peers n) pid = Some y) in Hy. rewrite Hp in Hy. injection Hy as <-. exact He.
Qed.

Lemma reachable_due : forall P n q, reachable P n -> due n q.
Proof.
  intros P n q (now & orc & st & di & evs & H). unfold execute in H.
  destruct ((start P st di;; run P evs) (empty_node (Z.of_N now) orc)) as [[x n1]| | |] eqn:E; try discriminate. injection H as <-.
  bind E as u m H1. destruct u.
  assert (R : reachable P m).
  { exists now, orc, st, di, []. unfold execute, bnd. rewrite H1. reflexivity. }
  assert (D : due m q).
  { pose proof (start_to P EvMaintenance _ _ _ _ _ H1 (empty_inv P _ _) eq_refl) as [[S _] _].
    intros p Hp He. exfalso. assert (X : unest q m); [|rewrite (X p Hp) in He; discriminate].
    eapply unest_steps; [exact S | reflexivity | apply empty_inv | intros y Hy; discriminate]. }
  clear H1. unfold run in E. revert x m R D E. induction evs as [|[dt ev] evs IH]; intros x m R D E; cbn [each] in E.
  - apply ret_ok in E. destruct E as [_ ->]. exact D.
  - bind E as u2 m2 H2. destruct u2. apply (IH x m2); [eapply later_reachable; [exact R | eapply handles_later; exact H2] | eapply due_event; eassumption | exact E].
Qed.

(** ** C38 *)
Lemma static_dyn : forall n pid p, static n pid -> find_id (n_peers n) pid = Some p -> is_dynamic p = false.
Proof. intros n pid p H Hp. specialize (H p Hp). unfold is_dynamic. destruct (p_conf p); congruence. Qed.

Lemma task_in_time : forall P n pid, reachable P n -> up (n_out n) pid = true ->
  exists p tk, find_id (n_peers n) pid = Some p /\ p_task p = Some tk /\
    (exists t o, In (t, o) (n_out n) /\ is_tx pid o /\ tk <= t + 20000) /\
    (p_conf p <> CDynamic -> exists t o, In (t, o) (n_out n) /\ is_rx pid o /\ tk <= t + 90000).
Proof.
  intros P n pid R Hu. apply (reachable_uinv P n R) in Hu. destruct Hu as (p & Hp & He).
  destruct (reachable_due P n pid R p Hp He) as (tk & D1 & D2 & D3).
  destruct (reachable_tinv P n R pid p Hp He) as [(r & R1 & R2 & R3) (k & K1 & t & o & Hin & Ho & K2)].
  exists p, tk. split; [exact Hp|]. split; [exact D1|]. split.
  - exists t, o. split; [exact Hin|]. split; [exact Ho|]. specialize (D3 k K1). unfold KEEPALIVE_TIMEOUT in K2. lia.
  - intros Hd. assert (Hd' : is_dynamic p = false) by (unfold is_dynamic; destruct (p_conf p); congruence). destruct (R3 Hd') as (t1 & o1 & Hin1 & Ho1 & E). exists t1, o1. split; [exact Hin1|]. split; [exact Ho1|]. specialize (D2 r R1). unfold PEER_STALE_TIME in E. lia.
Qed.

Lemma silent_dropped : forall P n dt n' pid, reachable P n -> up (n_out n) pid = true -> static n pid ->
  handles P n dt (EvTask pid) n' -> (forall t o, In (t, o) (n_out n) -> is_rx pid o -> t + 90000 <= n_now n') -> up (n_out n') pid = false.
Proof.
  intros P n dt n' pid R Hu Hs H Hq. pose proof (reachable_inv P n R) as I. pose proof (handles_steps P n dt _ n' H I) as [I1 [[S _] _]].
  pose proof (steps_now _ _ _ _ _ S) as En. cbn [tick n_now set_n_now] in En.
  pose proof (mid_tick P n dt R) as M. pose proof (mid_steps _ _ _ _ _ S M) as M'.
  destruct (task_in_time P n pid R Hu) as (p & tk & Hp & Et & _ & Hr). destruct (Hr (Hs p Hp)) as (t & o & Hin & Ho & Hle). specialize (Hq t o Hin Ho) as Hle2.
  pose proof (task_event P n dt pid n' H) as T. rewrite Hp, Et in T. cbn [otimed_out] in T. unfold timed_out in T.
  replace (tk <=? n_now n + Z.of_N dt) with true in T by lia.
  apply (reachable_uinv P n R) in Hu. destruct Hu as (p0 & Hp0 & He). rewrite Hp in Hp0. injection Hp0 as <-.
  apply unest_up; [apply M'|].
  destruct (reachable_tinv P n R pid p Hp He) as [(r & R1 & _ & R3) _]. destruct (R3 (static_dyn _ _ _ Hs Hp)) as (t1 & o1 & Hin1 & Ho1 & E).
  destruct (task_run P (EvTask pid) _ _ _ _ p T I1 M Hp He) as [(_ & X) | (X & _)]; [exact X|].
  exfalso. rewrite R1 in X. cbn [otimed_out] in X. unfold timed_out in X. cbn [tick n_now set_n_now] in X. specialize (Hq t1 o1 Hin1 Ho1). unfold PEER_STALE_TIME in E. lia.
Qed.

Lemma not_dropped_early : forall P n dt n' pid t, reachable P n -> handles P n dt (EvTask pid) n' -> newly n n' t (ODown pid) ->
  (forall t o, In (t, o) (n_out n) -> is_rx pid o -> t + 90000 <= n_now n') \/
  exists p, find_id (n_peers n) pid = Some p /\ sess_valid (n_now n') (p_sess p) = false.
Proof.
  intros P n dt n' pid t R H Hn. pose proof (reachable_inv P n R) as I. pose proof (handles_steps P n dt _ n' H I) as [I1 [[S _] _]].
  pose proof (steps_now _ _ _ _ _ S) as En. cbn [tick n_now set_n_now] in En. pose proof (mid_tick P n dt R) as M.
  change (newly (tick dt n) n' t (ODown pid)) in Hn.
  assert (Hx : n' = tick dt n -> False).
  { intros ->. destruct Hn as (l & E & Hin). destruct l; [destruct Hin|]. apply (f_equal (@length _)) in E. rewrite app_length in E. cbn in E. lia. }
  pose proof (task_event P n dt pid n' H) as T. destruct (find_id (n_peers n) pid) as [p|] eqn:Hp; [|contradiction].
  destruct (otimed_out _ (p_task p)); [|contradiction]. destruct (is_established p) eqn:He.
  - destruct (reachable_tinv P n R pid p Hp He) as [(r & R1 & R2 & _) _].
    destruct (task_run P (EvTask pid) _ _ _ _ p T I1 M Hp He) as [(X & _) | (_ & [(_ & _ & X) | (X & _)])].
    + left. intros t0 o Hin Ho. rewrite R1 in X. cbn [otimed_out] in X. unfold timed_out in X. cbn [tick n_now set_n_now] in X. specialize (R2 t0 o Hin Ho). unfold PEER_STALE_TIME in R2. lia.
    + right. exists p. split; [reflexivity|]. rewrite En. exact X.
    + exfalso. exact (X t Hn).
  - exfalso. assert (U : forall a b, steps P (EvTask pid) (ft pid) a b -> mid P a -> unest pid a -> newly a b t (ODown pid) -> False).
    { clear. intros a b S. induction S as [a|a a1 b Hs S IH]; intros Ma Hu Hn.
      - destruct Hn as (l & E & Hin). destruct l; [destruct Hin|]. apply (f_equal (@length _)) in E. rewrite app_length in E. cbn in E. lia.
      - pose proof (steps_one _ _ _ _ _ Hs) as S1. pose proof (mid_nstep _ _ _ _ _ Hs Ma) as M1.
        destruct (newly_trans _ _ _ _ _ (out_steps _ _ _ _ _ S1) (out_steps _ _ _ _ _ S) Hn) as [N1 | N1].
        + destruct (out_steps _ _ _ _ _ S1) as [l E]. pose proof (md_u _ _ M1) as [A _].
          destruct (nstep_out _ _ _ _ _ Hs) as [E1 | (o & E1)].
          * destruct N1 as (l1 & E2 & Hin). rewrite E1 in E2. destruct l1; [destruct Hin|]. apply (f_equal (@length _)) in E2. rewrite app_length in E2. cbn in E2. lia.
          * destruct N1 as (l1 & E2 & Hin). rewrite E1 in E2. destruct l1 as [|y [|z l1]]; [destruct Hin | | apply (f_equal (@length _)) in E2; cbn in E2; rewrite app_length in E2; lia].
            destruct Hin as [-> | []]. cbn [app] in E2. injection E2 as _ ->. rewrite E1 in A. cbn [alternating] in A.
            apply (unest_up a pid (md_u _ _ Ma)) in Hu. destruct A as [A _]. congruence.
        + apply IH; [exact M1 | eapply unest_steps; [exact S1 | reflexivity | apply Ma | exact Hu] | exact N1]. }
    apply (U _ _ S M); [|exact Hn]. intros y Hy. change (find_id (n_peers n) pid = Some y) in Hy. rewrite Hp in Hy. injection Hy as <-. exact He.
Qed.

Lemma keepalive_sent : forall P n dt n' pid, reachable P n -> up (n_out n) pid = true -> handles P n dt (EvTask pid) n' ->
  (forall t o, In (t, o) (n_out n) -> is_tx pid o -> t + 20000 <= n_now n') ->
  up (n_out n') pid = false \/ exists t o, newly n n' t o /\ ((exists sid nonce dst, o = OData pid sid nonce dst) \/ o = OEncFail pid).
Proof.
  intros P n dt n' pid R Hu H Hq. pose proof (reachable_inv P n R) as I. pose proof (handles_steps P n dt _ n' H I) as [I1 [[S _] _]].
  pose proof (steps_now _ _ _ _ _ S) as En. cbn [tick n_now set_n_now] in En.
  pose proof (mid_tick P n dt R) as M. pose proof (mid_steps _ _ _ _ _ S M) as M'.
  destruct (task_in_time P n pid R Hu) as (p & tk & Hp & Et & (t & o & Hin & Ho & Hle) & _). specialize (Hq t o Hin Ho) as Hle2.
  pose proof (task_event P n dt pid n' H) as T. rewrite Hp, Et in T. cbn [otimed_out] in T. unfold timed_out in T.
  replace (tk <=? n_now n + Z.of_N dt) with true in T by lia.
  apply (reachable_uinv P n R) in Hu. destruct Hu as (p0 & Hp0 & He). rewrite Hp in Hp0. injection Hp0 as <-.
  destruct (reachable_tinv P n R pid p Hp He) as [_ (k & K1 & t1 & o1 & Hin1 & Ho1 & K2)]. specialize (Hq t1 o1 Hin1 Ho1).
  destruct (task_run P (EvTask pid) _ _ _ _ p T I1 M Hp He) as [(_ & X) | (_ & [(X & _) | (_ & _ & X)])]; try (left; apply unest_up; [apply M' | exact X]).
  right. destruct X as (o2 & Hn & Hx & Hne).
  - rewrite K1. cbn [otimed_out]. unfold timed_out. cbn [tick n_now set_n_now]. unfold KEEPALIVE_TIMEOUT in K2. lia.
  - exists (n_now (tick dt n)), o2. split; [exact Hn|]. destruct o2; cbn [tx_out] in Hx; try contradiction; subst; first [left; do 3 eexists; reflexivity | right; reflexivity | contradiction].
Qed.
