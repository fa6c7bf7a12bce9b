(** The functions of the node model as steps that preserve the invariant:
    handshakes *)
From Verif Require Import Base BufferModel NonceModel MethodModel HandshakeModel NodeModel NodeSteps NodeWf NodeInv NodeFun NodeFun2.
From Coq Require Import Lia ZifyBool ZifyNat ZifyN Sorted.
Local Open Scope Z_scope.

(** ** Group limits *)
Lemma count_upd : forall n pid f p g, ids_ok n -> find_id (n_peers n) pid = Some p ->
  p_group (f p) = p_group p -> (is_established (f p) = true -> is_established p = true) ->
  (count_group (upd_id (n_peers n) pid f) g <= count_group (n_peers n) g)%nat.
Proof.
  intros n pid f p g Hi Hf Eg He. destruct (upd_split n pid f p Hi Hf) as (l1 & l2 & E1 & E2). rewrite E2, E1.
  unfold count_group. rewrite !filter_app, !app_length. cbn [filter]. unfold in_group. rewrite Eg.
  destruct (is_established (f p)) eqn:A; [rewrite (He eq_refl); cbn [andb]; destruct (existsb _ _); apply Nat.le_refl|]. cbn [andb]. destruct (is_established p && _)%bool; cbn [length]; lia.
Qed.
Lemma count_filter : forall h l g, (count_group (filter h l) g <= count_group l g)%nat.
Proof.
  intros h l g. unfold count_group. induction l as [|x l IH]; [reflexivity|]. cbn [filter]. destruct (h x); cbn [filter].
  - destruct (is_established x && in_group x g)%bool; cbn [length]; lia.
  - destruct (is_established x && in_group x g)%bool; cbn [length]; lia.
Qed.
Lemma count_nstep : forall P ev fl n n' g, nstep P ev fl n n' -> (forall q, f_up fl q = false) -> ids_ok n ->
  (count_group (n_peers n') g <= count_group (n_peers n) g)%nat.
Proof.
  intros P ev fl n n' g H Hup Hi.
  assert (Hpc : forall pid p f, find_id (n_peers n) pid = Some p -> pchange P ev fl n p (f p) ->
    (count_group (upd_id (n_peers n) pid f) g <= count_group (n_peers n) g)%nat).
  { intros pid p f Hf Hc. apply (count_upd n pid f p g Hi Hf); [apply (pchange_static _ _ _ _ _ _ Hc)|].
    intros He. destruct (is_established p) eqn:E; [reflexivity|]. rewrite (pchange_unest _ _ _ _ _ _ Hc (Hup _) E) in He. discriminate. }
  destruct H; cbn [n_peers set_n_orc set_n_floating set_n_resolving set_n_verifying set_n_next_sock set_n_eth set_n_out set_n_cur set_n_prev set_n_peers set_n_next_id set_n_next_sid];
    try reflexivity.
  - eapply Hpc; [exact H0|]. apply PC_seen. rewrite (proj2 (find_id_in _ _ _ H0)). exact H.
  - apply (Hpc pid p f H). apply PC_step. exact H0.
  - eapply Hpc; [exact H|]. apply PC_verdict. exact H0.
  - eapply Hpc; [exact H|]. apply PC_send; assumption.
  - apply (Hpc pid p f H). rewrite H0. apply PC_reset. apply find_id_in in H. rewrite (proj2 H). assumption.
  - apply count_filter.
  - unfold count_group. rewrite filter_app, app_length. cbn. lia.
  - unfold count_group. clear. generalize (n_peers n) as l0. intros l0. induction l0 as [|x l IH]; [reflexivity|]. cbn [map filter].
    destruct (pre_reload_const x) as (c & -> & _). change (is_established (set_p_conf c x)) with (is_established x).
    change (in_group (set_p_conf c x) g) with (in_group x g). destruct (is_established x && in_group x g)%bool; cbn [length]; lia.
  - eapply Hpc; [exact H0|]. eapply PC_session; try eassumption. rewrite (proj2 (find_id_in _ _ _ H0)). exact H.
  - rewrite Hup in H. discriminate.
Qed.
Lemma count_steps : forall P ev fl n n' g, steps P ev fl n n' -> (forall q, f_up fl q = false) -> inv0 P n ->
  (count_group (n_peers n') g <= count_group (n_peers n) g)%nat.
Proof.
  intros P ev fl n n' g H Hup. induction H as [|n n1 n2 Hs _ IH]; intros I; [reflexivity|].
  pose proof (count_nstep _ _ _ _ _ g Hs Hup (wf_ids _ (i_wf _ _ I))). specialize (IH (inv0_nstep _ _ _ _ _ Hs I)). lia.
Qed.
Lemma may_connect_steps : forall P ev fl n n' p p', steps P ev fl n n' -> (forall q, f_up fl q = false) -> inv0 P n ->
  p_state p' = p_state p -> p_group p' = p_group p -> may_connect P (n_peers n) p = true -> may_connect P (n_peers n') p' = true.
Proof.
  intros P ev fl n n' p p' H Hup I Es Eg Hm. unfold may_connect in *.
  replace (is_established p') with (is_established p) by (unfold is_established; rewrite Es; reflexivity).
  destruct (is_established p); [reflexivity|]. rewrite Eg. rewrite forallb_forall in *. intros g Hg. specialize (Hm g Hg).
  destruct (c_limit P g) as [m|]; [|reflexivity]. pose proof (count_steps _ _ _ _ _ g H Hup I). lia.
Qed.

(** ** The key of a peer never changes *)
Lemma gone_nstep : forall P ev fl n n' q, nstep P ev fl n n' -> ids_ok n -> find_id (n_peers n) q = None -> (q < n_next_id n)%N ->
  find_id (n_peers n') q = None.
Proof.
  intros P ev fl n n' q H Hi Hn Hlt. destruct (find_id (n_peers n') q) as [p'|] eqn:E; [|reflexivity].
  destruct (nstep_find _ _ _ _ _ _ _ H Hi E) as [(p & Hp & _) | (Eq & _)]; [congruence | lia].
Qed.
Lemma gone_steps : forall P ev fl n n' q, steps P ev fl n n' -> inv0 P n -> find_id (n_peers n) q = None -> (q < n_next_id n)%N ->
  find_id (n_peers n') q = None.
Proof.
  intros P ev fl n n' q H. induction H as [|n n1 n2 Hs _ IH]; intros I Hn Hlt; [exact Hn|].
  apply IH; [eapply inv0_nstep; eassumption | eapply gone_nstep; [exact Hs | exact (wf_ids _ (i_wf _ _ I)) | exact Hn | exact Hlt]|].
  pose proof (next_id_nstep _ _ _ _ _ Hs). lia.
Qed.
(** ** A current handshake key stays current *)
Definition fresh (n : node) : Prop := n_now n < k_preferred_till (n_cur n).
Lemma fresh_steps : forall P ev fl n n', steps P ev fl n n' -> fresh n -> fresh n' /\ n_cur n' = n_cur n /\ n_prev n' = n_prev n.
Proof.
  intros P ev fl n n' H. induction H as [|n n1 n2 Hs _ IH]; intros Hf; [repeat split; assumption|].
  assert (A : fresh n1 /\ n_cur n1 = n_cur n /\ n_prev n1 = n_prev n).
  { unfold fresh in *. destruct Hs; try (repeat split; assumption).
    - unfold timed_out in H. lia.
    - destruct (is_established p); repeat split; assumption. }
  destruct A as (A1 & A2 & A3). destruct (IH A1) as (B1 & B2 & B3). repeat split; congruence.
Qed.

Lemma nodel_steps : forall P ev fl n n' q p, steps P ev fl n n' -> (forall q, f_rs fl q = false) -> inv0 P n -> find_id (n_peers n) q = Some p ->
  exists p', find_id (n_peers n') q = Some p'.
Proof.
  intros P ev fl n n' q p H Hrs. revert p. induction H as [|n n1 n2 Hs _ IH]; intros p I Hp; [exists p; exact Hp|].
  destruct (nstep_fwd _ _ _ _ _ _ _ Hs (wf_ids _ (i_wf _ _ I)) Hp) as [(p1 & Hp1 & _) | (_ & _ & X & _)]; [|rewrite Hrs in X; discriminate].
  apply (IH p1); [eapply inv0_nstep; eassumption | exact Hp1].
Qed.
Definition pfix (p p' : peer) : Prop := p_key p' = p_key p /\ p_group p' = p_group p /\ is_dynamic p' = is_dynamic p /\ p_mtu p' = p_mtu p.
Lemma fix_steps : forall P ev fl n n' q p p', steps P ev fl n n' -> inv0 P n -> find_id (n_peers n) q = Some p ->
  find_id (n_peers n') q = Some p' -> pfix p p'.
Proof.
  intros P ev fl n n' q p p' H. revert p. induction H as [|n n1 n2 Hs Hrest IH]; intros p I Hp Hp'.
  - rewrite Hp in Hp'. injection Hp' as <-. repeat split.
  - pose proof (inv0_nstep _ _ _ _ _ Hs I) as I1. assert (Hi := wf_ids _ (i_wf _ _ I)).
    destruct (nstep_fwd _ _ _ _ _ _ _ Hs Hi Hp) as [(p1 & Hp1 & Hc) | (Hn & _ & _)].
    + specialize (IH p1 I1 Hp1 Hp'). destruct (pchange_static _ _ _ _ _ _ Hc) as (_ & E2 & E3 & _ & _ & _ & E7 & _ & E9 & _).
      destruct IH as (A & B & C & D). repeat split; congruence.
    + exfalso. rewrite (gone_steps _ _ _ _ _ _ Hrest I1 Hn) in Hp'; [discriminate|].
      pose proof (found_below n q p Hi Hp). pose proof (next_id_nstep _ _ _ _ _ Hs). lia.
Qed.

Section Fun.
Variables (P : params) (ev : event).
Notation Inv := (inv P).
Notation To := (to P ev).
Notation St := (steps P ev).

Definition kd (p : peer) := (p_key p, p_group p, p_conf p, p_serial p, p_eh_to p, p_state p, p_mtu p).
Lemma kf_kd : forall p p', kf p' = kf p -> kd p' = kd p.
Proof. intros p p' H. unfold kf, kd in *. congruence. Qed.
Definition dtrk (pid : N) (n n' : node) : Prop :=
  forall p', find_id (n_peers n') pid = Some p' -> exists p, find_id (n_peers n) pid = Some p /\ kd p' = kd p.
Definition verified (pid : N) (n : node) : Prop := forall p, find_id (n_peers n) pid = Some p -> n_now n < p_valid_to p.

Lemma kc_trans : forall n n1 n2, kc n n1 -> kc n1 n2 -> kc n n2.
Proof. intros n n1 n2 (A & B & C & D) (E & F & G & H). repeat split; congruence. Qed.
Lemma kc_refl : forall n, kc n n.
Proof. intros n. repeat split. Qed.
Lemma kc_wr : forall pid f x n n', wr pid f n = Ok (x, n') -> kc n n'.
Proof. intros pid f x n n' H. apply wr_ok in H. destruct H as (p & _ & ->). repeat split. Qed.
Lemma kc_orc : forall n n', (exists l, n' = set_n_orc l n) -> kc n n'.
Proof. intros n n' [l ->]. repeat split. Qed.
Lemma dtrk_trans : forall pid n n1 n2, dtrk pid n n1 -> dtrk pid n1 n2 -> dtrk pid n n2.
Proof.
  intros pid n n1 n2 H1 H2 p Hp. destruct (H2 p Hp) as (p1 & Hp1 & E1). destruct (H1 p1 Hp1) as (p0 & Hp0 & E0).
  exists p0. split; [exact Hp0 | congruence].
Qed.
Lemma dtrk_wr : forall pid f x n n', wr pid f n = Ok (x, n') -> keeps_id f -> (forall p, kd (f p) = kd p) -> dtrk pid n n'.
Proof. intros pid f x n n' H Hk He p Hp. destruct (wr_found _ _ _ _ _ H Hk p Hp) as (p0 & Hp0 & ->). exists p0. split; [exact Hp0 | apply He]. Qed.
Lemma dtrk_same : forall pid n n', n_peers n' = n_peers n -> dtrk pid n n'.
Proof. intros pid n n' E p Hp. rewrite E in Hp. exists p. split; [exact Hp | reflexivity]. Qed.

(** ** Dynamic peers *)
Lemma verdict_to : forall pid p src ok x y n n1 n', find_id (n_peers n) pid = Some p -> is_dynamic p = true -> verdict_of ev n pid src ok ->
  emit (OVerdict pid (p_key p) src ok) n = Ok (x, n1) -> set_verified pid ok n1 = Ok (y, n') -> Inv n ->
  To fq n n' /\ kc n n' /\ dtrk pid n n' /\ (ok = true -> verified pid n').
Proof.
  intros pid p src ok x y n n1 n' Hf Hd Hv H1 H2 I. apply emit_ok in H1. unfold set_verified in H2.
  bind H2 as now m H3. apply gets_ok in H3. destruct H3 as [-> ->]. cbv zeta in H2. subst n1. cbn [n_now set_n_out] in H2.
  split; [|split; [|split]].
  - apply to_quiet; [|exact I]. apply wr_ok in H2. destruct H2 as (p1 & _ & ->). apply steps_one.
    exact (N_verdict P ev fq n pid p src ok Hf Hd Hv).
  - apply kc_wr in H2. destruct H2 as (A & B & C & D). repeat split; assumption.
  - eapply dtrk_trans; [apply dtrk_same with (n' := set_n_out ((n_now n, OVerdict pid (p_key p) src ok) :: n_out n) n); reflexivity|].
    eapply dtrk_wr; [exact H2 | intros q; reflexivity | intros q; reflexivity].
  - intros -> q Hq. destruct (kc_wr _ _ _ _ _ H2) as (_ & _ & _ & En). rewrite En. cbn [n_now set_n_out].
    destruct (wr_found _ _ _ _ _ H2 ltac:(intros z; reflexivity) q Hq) as (q0 & _ & ->). cbn. unfold VERIFY_VALID_TIME. lia.
Qed.

Lemma verify_peer_to : forall pid sk la ra hk flags v n n', verify_peer P pid sk la ra hk flags n = Ok (v, n') -> Inv n -> (exists d, ev = EvRecv sk la ra d) ->
  (forall p, find_id (n_peers n) pid = Some p -> is_dynamic p = true) ->
  To fq n n' /\ kc n n' /\ dtrk pid n n' /\ (v = Some true -> verified pid n').
Proof.
  intros pid sk la ra hk flags v n n' H I [d Eev] Hd. unfold verify_peer in H. destruct (c_verify P) as [sync|]; [|discriminate].
  bind H as u m H1. unfold set_verifying in H1. bind H1 as now m0 H2. apply gets_ok in H2. destruct H2 as [-> ->].
  pose proof (kc_wr _ _ _ _ _ H1) as K1.
  pose proof (dtrk_wr _ _ _ _ _ H1 ltac:(intros z; reflexivity) ltac:(intros z; reflexivity)) as D1.
  assert (Hd1 : forall p, find_id (n_peers m) pid = Some p -> is_dynamic p = true).
  { intros p Hp. destruct (D1 p Hp) as (p0 & Hp0 & E). specialize (Hd p0 Hp0). unfold is_dynamic in *. unfold kd in E. injection E as _ _ E _ _ _ _. rewrite E. exact Hd. }
  apply wr_to with (P := P) (ev := ev) in H1; [|exact I | intros q Hq; apply ps_verifying; exact (Hd q Hq)].
  bind H as p m1 H2. apply rd_ok in H2. destruct H2 as [Hf ->]. destruct sync.
  - bind H as ok m2 H2. pose proof (flip_to P ev _ _ _ H2 (proj2 H1)) as T2. apply flip_same in H2. destruct H2 as [l ->].
    bind H as u3 m3 H3. bind H as u4 m4 H4. apply ret_ok in H. destruct H as [<- ->].
    destruct (verdict_to _ _ _ _ _ _ (set_n_orc l m) _ _ Hf (Hd1 p Hf) ltac:(rewrite Eev; reflexivity) H3 H4 (proj2 T2)) as (T3 & K3 & D3 & V3).
    split; [tchain|]. split; [eapply kc_trans; [exact K1 | exact K3]|]. split; [eapply dtrk_trans; [exact D1 | exact D3]|].
    intros E. injection E as ->. exact (V3 eq_refl).
  - bind H as st m2 H2. pose proof (flip_to P ev _ _ _ H2 (proj2 H1)) as T2. apply flip_same in H2. destruct H2 as [l ->].
    assert (KD : kc m (set_n_orc l m) /\ dtrk pid m (set_n_orc l m)) by (split; [repeat split | apply dtrk_same; reflexivity]). destruct KD as [K2 D2].
    destruct st; cbn [negb] in H.
    + bind H as u3 m3 H3. pose proof (emit_to P ev _ _ _ _ H3 (proj2 T2) Logic.I) as T3. apply emit_ok in H3.
      bind H as u4 m4 H4. apply ret_ok in H. destruct H as [<- ->]. apply modn_ok in H4.
      assert (T4 : To fq m3 m4).
      { apply to_quiet; [|apply T3]. rewrite H4. apply steps_one. apply N_verifying. intros j [<- | Hj]; [right | left; exact Hj].
        exists p. cbn [v_peer]. rewrite H3. split; [exact Hf|]. split; [exact (Hd1 p Hf) | left; reflexivity]. }
      split; [tchain|]. split; [eapply kc_trans; [exact K1|]; rewrite H4, H3; repeat split|].
      split; [eapply dtrk_trans; [exact D1|]; apply dtrk_same; rewrite H4, H3; reflexivity | discriminate].
    + apply ret_ok in H. destruct H as [<- ->]. split; [tchain|]. split; [eapply kc_trans; eassumption|].
      split; [eapply dtrk_trans; eassumption | discriminate].
Qed.

Lemma handle_dynamic_to : forall sk la ra pid hk w b n n', handle_dynamic P sk la ra pid hk w n = Ok (b, n') -> Inv n -> (exists d, ev = EvRecv sk la ra d) ->
  (forall p, find_id (n_peers n) pid = Some p -> is_dynamic p = true) ->
  To (fr pid) n n' /\ (b = true -> dtrk pid n n' /\ verified pid n' /\ kc n n').
Proof.
  intros sk la ra pid hk w b n n' H I Hev Hd. unfold handle_dynamic in H. bind H as p m H1. apply rd_ok in H1. destruct H1 as [Hf ->].
  bind H as now m H1. apply gets_ok in H1. destruct H1 as [-> ->]. destruct (_ || _)%bool.
  - apply ret_ok in H. destruct H as [<- ->]. split; [apply to_refl; exact I|]. intros E. split; [apply dtrk_same; reflexivity|].
    split; [|apply kc_refl]. intros q Hq. rewrite Hf in Hq. injection Hq as <-. unfold timed_out in E. lia.
  - bind H as v m H1. apply verify_peer_to in H1; [|exact I | exact Hev | exact Hd]. destruct H1 as (T1 & K1 & D1 & V1).
    destruct v as [[|]|].
    + apply ret_ok in H. destruct H as [<- ->]. split; [tchain|]. intros _. split; [exact D1 | split; [exact (V1 eq_refl) | exact K1]].
    + bind H as u m1 H2. apply ret_ok in H. destruct H as [<- ->]. split; [|discriminate].
      apply peer_delete_to with (ev := ev) in H2; [|apply T1|].
      * tchain.
      * intros q Hq. destruct (D1 q Hq) as (p0 & Hp0 & E). pose proof (Hd p0 Hp0) as Y. unfold kd in E. unfold is_dynamic in *.
        replace (p_conf q) with (p_conf p0) by congruence. exact Y.
    + apply ret_ok in H. destruct H as [<- ->]. split; [tchain | discriminate].
Qed.

Lemma add_dynamic_to : forall sk key r n n', add_dynamic P sk key n = Ok (r, n') -> Inv n ->
  To fc n n' /\ forall id, r = Some id -> en id n' /\ forall p, find_id (n_peers n') id = Some p -> p_key p = key.
Proof.
  intros sk key r n n' H I. unfold add_dynamic in H.
  assert (Hnone : r = None -> n' = n -> To fc n n' /\ forall id, r = Some id -> en id n' /\ forall p, find_id (n_peers n') id = Some p -> p_key p = key).
  { intros -> ->. split; [apply to_refl; exact I | discriminate]. }
  destruct (negb (allow_verify P)); [apply ret_ok in H; destruct H as [<- ->]; apply Hnone; reflexivity|].
  destruct sk as [k|o i]; [|apply ret_ok in H; destruct H as [<- ->]; apply Hnone; reflexivity].
  destruct (bytes_eqb (c_own P) key); [apply ret_ok in H; destruct H as [<- ->]; apply Hnone; reflexivity|].
  bind H as l m H1. apply gets_ok in H1. destruct H1 as [-> ->].
  destruct (find_peer_key (n_peers n) key) as [o|] eqn:Ek; [apply ret_ok in H; destruct H as [<- ->]; apply Hnone; reflexivity|].
  destruct (negb (c_key_ok P key)); [apply ret_ok in H; destruct H as [<- ->]; apply Hnone; reflexivity|].
  destruct (negb (may_connect _ _ _)); [apply ret_ok in H; destruct H as [<- ->]; apply Hnone; reflexivity|].
  clear Hnone. bind H as a m H1. unfold peer_add in H1. bind H1 as l2 m2 H2. apply gets_ok in H2. destruct H2 as [-> ->].
  cbn [pc_key dyn_conf] in H1. rewrite Ek in H1. bind H1 as id m2 H2. apply ret_ok in H1. destruct H1 as [<- ->].
  unfold insert_peer in H2. bind H2 as id2 m3 H3. apply gets_ok in H3. destruct H3 as [-> ->].
  bind H2 as u m3 H3. apply ret_ok in H2. destruct H2 as [<- ->]. apply modn_ok in H3.
  pose (id := n_next_id n). change (n_next_id n) with id in H, H3.
  bind H as u4 m4 H4. bind H as u5 m5 H5. apply ret_ok in H. destruct H as [<- ->].
  assert (Hnew : find_id (n_peers n) id = None).
  { destruct (find_id (n_peers n) id) as [p|] eqn:E; [|reflexivity]. apply found_below in E; [|apply (wf_ids _ (i_wf _ _ (i_0 _ _ I)))]. unfold id in E. lia. }
  assert (S1 : St (fr id) n m3).
  { rewrite H3. apply steps_one. apply N_insert; [exact Ek | right; split; reflexivity | apply N.eqb_refl]. }
  assert (F1 : find_id (n_peers m3) id = Some (new_peer id (dyn_conf P key) CDynamic (k_serial (n_cur n)))).
  { rewrite H3. cbn [n_peers set_n_next_id set_n_peers]. revert Hnew. generalize (n_peers n) as l. induction l as [|x l IH]; intros Hnew.
    - unfold find_id. cbn [app find p_id new_peer]. rewrite N.eqb_refl. reflexivity.
    - unfold find_id in *. cbn [app find] in *. destruct (N.eqb (p_id x) id); [discriminate | exact (IH Hnew)]. }
  assert (S2 : St (fr id) m3 m4).
  { eapply wr_steps; [exact H4|]. intros q Hq. rewrite F1 in Hq. injection Hq as <-. apply ps_serial; [reflexivity | reflexivity|].
    intros t o Ho E. rewrite H3 in Ho. apply (i_hist _ _ (i_0 _ _ I) t o id Ho) in E. unfold id in E. lia. }
  assert (S3 : St (fr id) m4 m5) by (eapply peer_reset_steps; [exact H5 | apply N.eqb_refl]).
  assert (I2 : inv0 P m3) by (eapply inv0_steps; [exact S1 | apply I]).
  assert (I4 : inv0 P m4) by (eapply inv0_steps; [exact S2 | exact I2]).
  assert (T : To (fr id) n m5).
  { apply fr_alive; [|exact I|exact (peer_reset_alive P ev _ _ _ _ H5 I4)].
    eapply steps_trans; [exact S1|]. eapply steps_trans; eassumption. }
  split; [eapply to_mono; [apply fle_fr_fc | exact T]|]. intros id' Eid. injection Eid as <-. fold id.
  assert (S24 : St (fr id) m3 m5) by (eapply steps_trans; eassumption). split.
  - eapply (en_steps P ev (fr id) m3 m5 id S24 eq_refl I2). intros p Hp. rewrite F1 in Hp. injection Hp as <-. reflexivity.
  - intros p Hp. destruct (fix_steps _ _ _ _ _ _ _ _ S24 I2 F1 Hp) as (E & _). exact E.
Qed.

(** ** Sessions *)
Lemma update_shared_to : forall pid serial hk r n n', update_shared P pid serial hk n = Ok (r, n') -> Inv n ->
  To fq n n' /\ ktrk pid n n' /\ kc n n' /\
  forall c, r = Some c -> forall p, find_id (n_peers n) pid = Some p -> c_shared P false serial (p_key p) hk = Some (hc_sigma c, hc_key c).
Proof.
  intros pid serial hk r n n' H I. unfold update_shared in H. bind H as p m H1. apply rd_ok in H1. destruct H1 as [Hf ->]. cbv zeta in H.
  assert (Hc : match c_shared P false serial (p_key p) hk with
    | None => ret None
    | Some (sigma, key) =>
        wr pid (set_p_cache (Some (mk_hcache serial hk sigma key))) ;; ret (Some (mk_hcache serial hk sigma key))
    end n = Ok (r, n') -> To fq n n' /\ ktrk pid n n' /\ kc n n' /\
      forall c, r = Some c -> forall p, find_id (n_peers n) pid = Some p -> c_shared P false serial (p_key p) hk = Some (hc_sigma c, hc_key c)).
  { clear H. intros H. destruct (c_shared P false serial (p_key p) hk) as [[sigma key]|] eqn:Es.
    - bind H as u m H1. apply ret_ok in H. destruct H as [<- ->]. split; [|split; [|split; [eapply kc_wr; exact H1|]]].
      + eapply wr_to; [exact H1 | exact I|]. intros q Hq. rewrite Hf in Hq. injection Hq as <-. apply ps_cache. exact Es.
      + eapply ktrk_wr; [exact H1 | intros q; reflexivity | intros q; reflexivity].
      + intros c E q Hq. injection E as <-. rewrite Hf in Hq. injection Hq as <-. exact Es.
    - apply ret_ok in H. destruct H as [<- ->]. split; [apply to_refl; exact I|]. split; [apply ktrk_refl|]. split; [apply kc_refl | discriminate]. }
  destruct (p_cache p) as [c|] eqn:Ec; [|exact (Hc H)].
  destruct (N.eqb (hc_serial c) serial && bytes_eqb (hc_hk c) hk)%bool eqn:E; [|exact (Hc H)].
  apply ret_ok in H. destruct H as [<- ->]. split; [apply to_refl; exact I|]. split; [apply ktrk_refl|]. split; [apply kc_refl|].
  intros c' E2 q Hq. injection E2 as <-. rewrite Hf in Hq. injection Hq as <-. apply andb_prop in E. destruct E as [E1 E2].
  apply N.eqb_eq in E1. apply bytes_eqb_true in E2. subst.
  apply find_id_in in Hf. exact (pi_cache _ _ (i_pinv _ _ (i_0 _ _ I) p (proj1 Hf)) c Ec).
Qed.

Lemma kf_fields : forall p p', kf p' = kf p -> p_key p' = p_key p /\ p_group p' = p_group p /\ p_conf p' = p_conf p /\ p_serial p' = p_serial p /\
  p_eh_to p' = p_eh_to p /\ p_valid_to p' = p_valid_to p /\ p_state p' = p_state p /\ p_mtu p' = p_mtu p.
Proof. intros p p' H. unfold kf in H. injection H as -> -> -> -> -> -> -> ->. repeat split. Qed.
Lemma send_packet_fp : forall r sk dst pid o x n n', send_packet sk dst pid o n = Ok (x, n') -> Inv n -> oact pid n ->
  (forall a, dst = Some a -> plain_out P ev (fp r) n (o a)) -> To (fp r) n n'.
Proof.
  intros r sk dst pid o x n n' H I Ha Ho. assert (S : St (fp r) n n') by (eapply send_packet_steps; eassumption).
  apply to_intro; [exact S | reflexivity | reflexivity | exact I|]. apply (inv_quiet _ _ _ _ _ S); [|exact I]. split; [reflexivity | intros q; reflexivity].
Qed.
Lemma respond_handshake_to : forall sk ra pid hk x n n', respond_handshake P sk ra pid hk n = Ok (x, n') -> Inv n -> act pid n ->
  (forall p, find_id (n_peers n) pid = Some p -> match ev with EvRecv _ _ a _ => ra = a /\ p_eh_to p <= n_now n | EvVerified _ _ => is_dynamic p = true | _ => False end) ->
  To (fp (N.eqb pid)) n n'.
Proof.
  intros sk ra pid hk x n n' H I Ha Hev. unfold respond_handshake in H. bind H as cur m H1. apply gets_ok in H1. destruct H1 as [-> ->].
  bind H as c m H1. pose proof H1 as H1'. unfold update_shared in H1'. bind H1' as p0 m0 H2. apply rd_ok in H2. destruct H2 as [Hf _]. clear H1'.
  apply update_shared_to in H1; [|exact I]. destruct H1 as (T1 & K1 & (_ & _ & _ & N1) & Sh). destruct c as [c|]; [|apply ret_ok in H; destruct H as [_ ->]; eapply to_mono; [apply fle_fq | exact T1]].
  bind H as p m' H1. apply rd_ok in H1. destruct H1 as [Hp ->]. specialize (Sh c eq_refl p0 Hf).
  apply send_packet_fp with (r := N.eqb pid) in H; [|apply T1 | eapply act_quiet; eassumption|].
  - tchain.
  - intros a Ea. injection Ea as <-. cbn [plain_out]. split; [apply N.eqb_refl|]. destruct (nodel_steps _ _ _ _ _ pid p0 (to_steps _ _ _ _ _ T1) (fun _ => eq_refl) (i_0 _ _ I) Hf) as [q Hq].
    exists q. split; [exact Hq|]. rewrite Hp in Hq. injection Hq as <-. destruct (K1 p Hp) as (q0 & Hq0 & E). apply kf_fields in E. destruct E as (Ek & _ & Ec & _ & E5 & _).
    split; [rewrite Hf in Hq0; injection Hq0 as <-; rewrite Ek; eexists; exact Sh|]. split; [reflexivity|].
    specialize (Hev q0 Hq0). destruct ev; try exact Hev.
    + rewrite E5, N1. exact Hev.
    + unfold is_dynamic in *. rewrite Ec. exact Hev.
Qed.

Lemma rand_range : forall lo hi x n n', lo < hi -> rand lo hi n = Ok (x, n') -> lo <= x < hi.
Proof.
  intros lo hi x n n' Hlt H. unfold rand in H. bind H as y m H1. apply ret_ok in H. destruct H as [<- _].
  pose proof (Z.mod_pos_bound (Z.of_N y) (hi - lo) ltac:(lia)). lia.
Qed.

(** what is known before a session is created *)
Record ready (n : node) (pid : N) (method : bytes) (initiator compat : bool) (hk key sigma : bytes) (serial : N) (src : addr) : Prop := mk_ready {
  rd_ev : forall p, find_id (n_peers n) pid = Some p -> exists sk laddr d pkt ctl h w mac tlv0,
    ev = EvRecv sk laddr src d /\ classify d = PHandshake pkt ctl /\ handshake_handle (c_hs P) pkt ctl = Ok (HProtocol h) /\
    view pkt h = Ok w /\ w_type w = (if initiator then 2 else 3)%N /\
    w_sender w = Some (p_key p) /\ w_recipient w = Some (c_own P) /\
    w_sender_hk w = Some hk /\ w_recipient_hk w = Some (c_eph P serial) /\
    w_mac w = Some (mac, tlv0) /\ c_mac P key tlv0 = mac /\ compat = compat_of (w_flags w) /\
    (match w_mtu w with Some m => m = peer_mtu P p | None => True end) /\
    (if initiator then get_method_by_name_list (c_methods P (p_group p)) (w_method_list w)
     else get_method_by_name (c_methods P (p_group p)) (w_method w)) = Some method;
  rd_shared : forall p, find_id (n_peers n) pid = Some p -> c_shared P initiator serial (p_key p) hk = Some (sigma, key);
  rd_valid : exists k, (k = n_cur n \/ k = n_prev n) /\ k_serial k = serial /\ n_now n < k_valid_till k;
  rd_fresh : fresh n;
  rd_eh : forall p, find_id (n_peers n) pid = Some p -> p_eh_to p <= n_now n;
  rd_dyn : forall p, find_id (n_peers n) pid = Some p -> is_dynamic p = true -> n_now n < p_valid_to p
}.
Lemma ready_kept : forall n n' pid method initiator compat hk key sigma serial src,
  ready n pid method initiator compat hk key sigma serial src -> ktrk pid n n' -> kc n n' ->
  ready n' pid method initiator compat hk key sigma serial src.
Proof.
  intros n n' pid method initiator compat hk key sigma serial src [R1 R2 R3 R6 R4 R5] K (C1 & C2 & C3 & C4).
  assert (K' : forall p', find_id (n_peers n') pid = Some p' -> exists p, find_id (n_peers n) pid = Some p /\ p_key p' = p_key p /\ p_group p' = p_group p /\
    p_eh_to p' = p_eh_to p /\ p_valid_to p' = p_valid_to p /\ p_mtu p' = p_mtu p /\ p_conf p' = p_conf p).
  { intros p' Hp'. destruct (K p' Hp') as (p & Hp & E). apply kf_fields in E. exists p. tauto. }
  constructor.
  - intros p' Hp'. destruct (K' p' Hp') as (p & Hp & E1 & E2 & E3 & E4 & E5 & E6). rewrite E1, E2.
    destruct (R1 p Hp) as (sk & laddr & d & pkt & ctl & h & w & mac & tlv0 & X). exists sk, laddr, d, pkt, ctl, h, w, mac, tlv0.
    replace (peer_mtu P p') with (peer_mtu P p); [exact X|]. unfold peer_mtu. rewrite E5. reflexivity.
  - intros p' Hp'. destruct (K' p' Hp') as (p & Hp & E1 & _). rewrite E1. exact (R2 p Hp).
  - rewrite C1, C2, C4. exact R3.
  - unfold fresh. rewrite C1, C4. exact R6.
  - intros p' Hp'. destruct (K' p' Hp') as (p & Hp & E1 & E2 & E3 & E4 & E5 & E6). rewrite E3, C4. exact (R4 p Hp).
  - intros p' Hp' Hd. destruct (K' p' Hp') as (p & Hp & E1 & E2 & E3 & E4 & E5 & E6). rewrite E4, C4. apply (R5 p Hp).
    unfold is_dynamic in *. rewrite <- E6. exact Hd.
Qed.

(** two writes to the same peer *)
Lemma upd_upd : forall l pid f g, keeps_id f -> upd_id (upd_id l pid f) pid g = upd_id l pid (fun p => g (f p)).
Proof.
  intros l pid f g Hf. unfold upd_id. rewrite map_map. apply map_ext. intros p. destruct (N.eqb (p_id p) pid) eqn:E; [rewrite Hf, E; reflexivity | rewrite E; reflexivity].
Qed.

Definition has_sess (pid : N) (sid : N) (method : bytes) (st : mstate) (n : node) : Prop :=
  forall p, find_id (n_peers n) pid = Some p -> p_sess p = Some (mk_psess sid false false method st).
Definition fs (q : N) : flags := mk_flags false false no (N.eqb q) no no no no false.
Definition fu (q : N) : flags := mk_flags false false no no (N.eqb q) no no no false.
Lemma fle_fs : forall q, fle (fs q) ff. Proof. fle. Qed.
Lemma fle_fu : forall q, fle (fu q) ff. Proof. fle. Qed.
Lemma to_fs : forall q n n', St (fs q) n n' -> Inv n -> To (fs q) n n'.
Proof. intros q n n' S I. apply to_intro; [exact S | reflexivity | reflexivity | exact I|]. eapply inv_quiet; [exact S | split; reflexivity | exact I]. Qed.
Lemma to_fu : forall q n n', St (fu q) n n' -> Inv n -> To (fu q) n n'.
Proof. intros q n n' S I. apply to_intro; [exact S | reflexivity | reflexivity | exact I|]. eapply inv_quiet; [exact S | split; reflexivity | exact I]. Qed.

Lemma new_session_to : forall pid method initiator compat hk key sigma serial src b n n',
  new_session P pid method initiator compat hk key sigma serial src n = Ok (b, n') -> Inv n -> act pid n ->
  ready n pid method initiator compat hk key sigma serial src -> has_addr pid src n ->
  (forall p, find_id (n_peers n) pid = Some p -> (p_serial p < serial)%N) ->
  To (fs pid) n n' /\ (b = true -> has_addr pid src n' /\ kc n n' /\
    (exists sid st, has_sess pid sid method st n' /\ m_valid (n_now n) st = true) /\
    (forall q, find_id (n_peers n') pid = Some q -> exists q1, find_id (n_peers n) pid = Some q1 /\ p_state q = p_state q1 /\ p_group q = p_group q1) /\
    (forall q, find_id (n_peers n') pid = Some q -> exists conf sid, In (n_now n, OSession pid (p_key q) conf initiator serial hk key sigma method sid src) (n_out n'))).
Proof.
  intros pid method initiator compat hk key sigma serial src b n n' H I Ha R Had Hser. unfold new_session in H.
  bind H as failed m2 H2. pose proof (flip_to P ev _ _ _ H2 I) as T2. apply flip_same in H2. destruct H2 as [l2 ->].
  destruct failed; [apply ret_ok in H; destruct H as [<- ->]; split; [|discriminate]; apply to_mono with fq; [apply fle_fq | tchain]|].
  bind H as now m3 H3. apply gets_ok in H3. destruct H3 as [-> ->].
  bind H as rnd m3 H3. pose proof (rand_range 0 KEY_REFRESH_SPLAY _ _ _ ltac:(reflexivity) H3) as Hrnd.
  pose proof (orc_to P ev _ _ (rand_same _ _ _ _ _ H3) (proj2 T2)) as T3. apply rand_same in H3. destruct H3 as [l3 ->].
  bind H as sid m4 H4. apply gets_ok in H4. destruct H4 as [-> ->].
  bind H as u5 m5 H5. apply modn_ok in H5. cbv zeta in H.
  bind H as p m6 H6. apply rd_ok in H6. destruct H6 as [Hf ->].
  bind H as u6 m6 H6. unfold supersede_session in H6. bind H6 as now6 m61 H61. apply gets_ok in H61. destruct H61 as [-> ->].
  bind H as u7 m7 H7. bind H as u8 m8 H8. apply ret_ok in H. destruct H as [<- ->]. apply emit_ok in H8.
  assert (Hf1 : find_id (n_peers n) pid = Some p) by (rewrite H5 in Hf; exact Hf).
  assert (Ksup : forall t, keeps_id (superseded t method)) by (intros t z; unsup; reflexivity).
  pose (m := set_n_orc l3 (set_n_orc l2 n)). fold m in H5, T3.
  assert (T4 : To (fs pid) m m8).
  { apply to_fs; [|apply T3]. apply steps_one. rewrite H8. apply wr_ok in H7. destruct H7 as (p7 & _ & ->). apply wr_ok in H6. destruct H6 as (p6 & _ & ->).
    cbn [n_peers set_n_peers]. rewrite upd_upd by apply Ksup. rewrite H5.
    refine (N_session P ev (fs pid) m pid p method initiator compat hk key sigma serial src rnd (N.eqb_refl pid) Hf1 (Ha p Hf1) Hrnd _).
    destruct R as [X1 X2 X3 X6 X4 X5]. constructor.
    - exact (X1 p Hf1).
    - exact (X2 p Hf1).
    - exact X3.
    - exact X6.
    - exact (Hser p Hf1).
    - exact (X4 p Hf1).
    - exact (X5 p Hf1).
    - exact (Had p Hf1).
    - apply (i_alive _ _ (proj2 T3) pid p Hf1). exact (Ha p Hf1). }
  split.
  { apply to_trans with m; [|exact T4]. apply to_mono with fq; [apply fle_fq | tchain]. }
  assert (K7 : forall q, find_id (n_peers m8) pid = Some q -> q = set_p_serial serial (set_p_sess (Some (mk_psess (n_next_sid m) false false method
             (if c_null P method then MNull {| n_initiator := initiator; n_compat := compat; n_valid := true |}
              else MCommon (common_init (n_now n) initiator compat rnd)))) (superseded (n_now n) method p))).
  { intros q Hq. rewrite H8 in Hq. cbn [n_peers set_n_out] in Hq. destruct (wr_found _ _ _ _ _ H7 ltac:(intros z; reflexivity) q Hq) as (q0 & Hq0 & ->).
    destruct (wr_found _ _ _ _ _ H6 (Ksup _) q0 Hq0) as (q1 & Hq1 & ->). rewrite Hf in Hq1. injection Hq1 as <-. rewrite H5. reflexivity. }
  intros _. split; [|split; [|split; [|split]]].
  - intros q Hq. rewrite (K7 q Hq). unsup. exact (Had p Hf1).
  - apply kc_wr in H7. apply kc_wr in H6. rewrite H8. rewrite H5 in H6. apply (kc_trans _ _ _ H6) in H7. destruct H7 as (X1 & X2 & X3 & X4). repeat split; assumption.
  - eexists. eexists. split; [intros q Hq; rewrite (K7 q Hq); reflexivity|].
    destruct (c_null P method); [reflexivity|]. cbn [m_valid].
    unfold common_is_valid, common_init, timed_out, KEY_VALID. cbn [s_send s_valid_till nth]. cbn. lia.
  - intros q Hq. exists p. split; [exact Hf1|]. rewrite (K7 q Hq). unsup. split; reflexivity.
  - intros q Hq. exists (p_conf p), (n_next_sid m). rewrite (K7 q Hq). assert (Ek : forall t x y, p_key (set_p_serial x (set_p_sess y (superseded t method p))) = p_key p) by (intros; unsup; reflexivity).
    rewrite Ek, H8. cbn [n_out set_n_out]. left. f_equal. apply kc_wr in H7. apply kc_wr in H6. rewrite H5 in H6. destruct (kc_trans _ _ _ H6 H7) as (_ & _ & _ & X4). rewrite X4. reflexivity.
Qed.

(** the peer after [set_established] *)
Lemma set_established_to : forall pid b n n', set_established pid n = Ok (b, n') -> Inv n -> act pid n ->
  (forall p, find_id (n_peers n) pid = Some p -> may_connect P (n_peers n) p = true /\ p_sess p <> None /\ p_addr p <> None) ->
  To (fu pid) n n' /\ kc n n' /\ forall p', find_id (n_peers n') pid = Some p' -> exists p, find_id (n_peers n) pid = Some p /\ p_sess p' = p_sess p.
Proof.
  intros pid b n n' H I Ha Hm. unfold set_established in H. bind H as p m H1. apply rd_ok in H1. destruct H1 as [Hf ->].
  bind H as ok m H1.
  assert (A : To fq n m /\ kc n m /\ exists ifc, find_id (n_peers m) pid = Some (set_p_iface ifc p) /\ may_connect P (n_peers m) p = true).
  { destruct (Hm p Hf) as (Hmc & _ & _). destruct (p_iface p) eqn:Ei.
    - apply ret_ok in H1. destruct H1 as [_ ->]. split; [apply to_refl; exact I|]. split; [apply kc_refl|]. exists true.
      split; [rewrite Hf; destruct p; cbn in Ei; subst; reflexivity | exact Hmc].
    - bind H1 as ok2 m2 H2. pose proof (flip_to P ev _ _ _ H2 I) as T2. apply flip_same in H2. destruct H2 as [l ->].
      bind H1 as u m3 H3. apply ret_ok in H1. destruct H1 as [_ ->]. unfold when in H3. destruct ok2.
      + pose proof (kc_wr _ _ _ _ _ H3) as C3. pose proof H3 as H3'. apply wr_ok in H3'. destruct H3' as (p3 & Hp3 & E3).
        change (n_peers (set_n_orc l n)) with (n_peers n) in Hp3. rewrite Hf in Hp3. injection Hp3 as <-.
        apply wr_to with (P := P) (ev := ev) in H3; [|apply T2|].
        2:{ intros q _. apply ps_timer'. exists (p_next_hs q), (p_next_remote q), (p_lh_to q), (p_lh_addr q), true. destruct q; reflexivity. }
        split; [tchain|]. split; [exact C3|]. exists true. split.
        * rewrite E3. cbn [n_peers set_n_peers set_n_orc]. apply find_id_upd_same; [intros q; reflexivity | exact Hf].
        * destruct H3 as [[S3 _] _]. apply (may_connect_steps P ev fq _ _ p p S3); [reflexivity | apply T2 | reflexivity | reflexivity | exact Hmc].
      + apply ret_ok in H3. destruct H3 as [_ ->]. split; [exact T2|]. split; [repeat split|]. exists false.
        split; [cbn [n_peers set_n_orc]; rewrite Hf; destruct p; cbn in Ei; subst; reflexivity | exact Hmc]. }
  destruct A as (T1 & C1 & ifc & Hf1 & Hmc1).
  pose proof (act_quiet P ev _ _ _ T1 I Ha) as Ha1.
  assert (Hret : n' = m -> To (fu pid) n n' /\ kc n n' /\ forall p', find_id (n_peers n') pid = Some p' -> exists p, find_id (n_peers n) pid = Some p /\ p_sess p' = p_sess p).
  { intros ->. split; [apply to_mono with fq; [apply fle_fq | exact T1]|]. split; [exact C1|]. intros p' Hp'. rewrite Hf1 in Hp'. injection Hp' as <-. exists p. split; [exact Hf | reflexivity]. }
  destruct ok; cbn [negb] in H; [|apply ret_ok in H; destruct H as [_ ->]; exact (Hret eq_refl)].
  destruct (is_established p) eqn:Est; [apply ret_ok in H; destruct H as [_ ->]; exact (Hret eq_refl)|]. clear Hret.
  bind H as u2 m2 H2. apply wr_ok in H2. destruct H2 as (p2 & _ & E2).
  bind H as u3 m3 H3. unfold peer_seen in H3. bind H3 as now m3' H3'. apply gets_ok in H3'. destruct H3' as [-> ->]. apply wr_ok in H3. destruct H3 as (p3 & _ & E3).
  bind H as u4 m4 H4. unfold clear_keepalive in H4. bind H4 as now m4' H4'. apply gets_ok in H4'. destruct H4' as [-> ->]. apply wr_ok in H4. destruct H4 as (p4 & _ & E4).
  bind H as u5 m5 H5. unfold schedule_peer_task in H5. apply wr_ok in H5. destruct H5 as (p5 & _ & E5).
  bind H as u6 m6 H6. apply emit_ok in H6. apply ret_ok in H. destruct H as [_ ->].
  pose (q := set_p_iface ifc p).
  pose (f := fun p : peer => sched (set_p_keep_to (Some (n_now m + KEEPALIVE_TIMEOUT)) (set_p_reset_to (Some (n_now m + PEER_STALE_TIME)) (set_p_state Established p)))).
  assert (Em : m6 = set_n_out ((n_now m, OUp pid) :: n_out m) (set_n_peers (upd_id (n_peers m) pid f) m)).
  { assert (Hi : ids_ok m) by apply (wf_ids _ (i_wf _ _ (i_0 _ _ (proj2 T1)))).
    rewrite H6, E5, E4, E3, E2. cbn [n_now n_out n_peers set_n_peers set_n_out]. f_equal. rewrite !upd_upd by (intros z; reflexivity).
    match goal with |- set_n_peers (upd_id (n_peers m) pid ?g) _ = _ => assert (Eu : upd_id (n_peers m) pid g = upd_id (n_peers m) pid f) end.
    { destruct (upd_split m pid f q Hi Hf1) as (l1 & l2 & X1 & X2). rewrite X2.
      match goal with |- upd_id _ _ ?g = _ => destruct (upd_split m pid g q Hi Hf1) as (k1 & k2 & Y1 & Y2); rewrite Y2; assert (Eg : g q = f q) by reflexivity; rewrite Eg end.
      assert (Hi' := Hi). destruct Hi' as [Hs _]. apply sorted_nodup in Hs.
      assert (l1 = k1 /\ l2 = k2) as [-> ->]; [|reflexivity].
      unfold ids in Hs. rewrite X1 in Y1, Hs. clear - Y1 Hs. revert k1 Y1. induction l1 as [|x l1 IH]; intros [|y k1] Y1; cbn in Y1.
      - injection Y1 as ->. split; reflexivity.
      - injection Y1 as <- ->. exfalso. cbn in Hs. inversion Hs as [|a b Hn _ E]; subst. apply Hn. rewrite map_app. apply in_or_app. right. left. reflexivity.
      - injection Y1 as -> <-. exfalso. cbn in Hs. inversion Hs as [|a b Hn _ E]; subst. apply Hn. rewrite map_app. apply in_or_app. right. left. reflexivity.
      - injection Y1 as <- Y1. cbn in Hs. inversion Hs as [|a b Hn Hs' E]; subst. destruct (IH Hs' k1 Y1) as [-> ->]. split; reflexivity. }
    rewrite Eu. reflexivity. }
  destruct (Hm p Hf) as (_ & Hsess & Haddr).
  assert (T6 : To (fu pid) m m6).
  { apply to_fu; [|apply T1]. rewrite Em. apply steps_one.
    refine (N_up P ev (fu pid) m pid q (N.eqb_refl pid) Hf1 (Ha1 q Hf1) Est _ Hmc1 Hsess Haddr).
    apply (i_alive _ _ (proj2 T1) pid q Hf1). exact (Ha1 q Hf1). }
  split; [apply to_trans with m; [apply to_mono with fq; [apply fle_fq | exact T1] | exact T6]|].
  split; [eapply kc_trans; [exact C1 | rewrite Em; repeat split]|].
  intros p' Hp'. exists p. split; [exact Hf|]. rewrite Em in Hp'. cbn [n_peers set_n_out set_n_peers] in Hp'.
  erewrite find_id_upd_same in Hp'; [|intros z; unfold f; unsched; reflexivity | exact Hf1]. injection Hp' as <-. unfold f. unsched. reflexivity.
Qed.

(** a new session limits the rate of handshakes, if the peer is established *)
Definition busy (pid : N) (n : node) : Prop :=
  forall p, find_id (n_peers n) pid = Some p -> is_established p = true -> p_eh_to p = n_now n + MIN_HANDSHAKE_INTERVAL.
Lemma unest_busy : forall pid n, unest pid n -> busy pid n.
Proof. intros pid n H p Hp He. rewrite (H p Hp) in He. discriminate. Qed.
Lemma pchange_eh : forall fl n p p', pchange P ev fl n p p' -> actp p -> p_eh_to p' = p_eh_to p \/ p_eh_to p' = n_now n + MIN_HANDSHAKE_INTERVAL.
Proof.
  intros fl n p p' H Ha. destruct H; cbv zeta; unsched; unsup; try (left; reflexivity).
  - destruct H; unsched; try (left; reflexivity); [right; reflexivity | congruence].
  - destruct old; left; reflexivity.
  - left. unfold reset_fn. cbv zeta. destruct (_ || _ || _)%bool; reflexivity.
  - left. destruct (pre_reload_const p) as (c & -> & _). reflexivity.
Qed.
Lemma busy_steps : forall fl n n' pid, St fl n n' -> f_up fl pid = false -> inv0 P n -> busy pid n -> busy pid n'.
Proof.
  intros fl n n' pid H Hup. induction H as [|n n1 n2 Hs _ IH]; intros I Hb; [exact Hb|].
  apply IH; [eapply inv0_nstep; eassumption|]. intros p' Hp' He'.
  assert (En : n_now n1 = n_now n) by apply (nstep_peers _ _ _ _ _ Hs). rewrite En.
  destruct (nstep_find _ _ _ _ _ _ _ Hs (wf_ids _ (i_wf _ _ I)) Hp') as [(p & Hp & Hc) | (_ & _ & _ & c & st & -> & _)]; [|discriminate].
  destruct (is_established p) eqn:E.
  - assert (Ha : actp p) by (apply is_est_true in E; unfold actp; congruence).
    destruct (pchange_eh _ _ _ _ Hc Ha) as [X | X]; rewrite X; [exact (Hb p Hp E) | reflexivity].
  - rewrite (pchange_unest _ _ _ _ _ _ Hc) in He'; [discriminate | rewrite (proj2 (find_id_in _ _ _ Hp)); exact Hup | exact E].
Qed.

(** an event with a new session *)
Definition via (n n' : node) : Prop :=
  exists pid m1 m2 m3, To fc n m1 /\ To (fs pid) m1 m2 /\ To (fu pid) m2 m3 /\ To (fr pid) m3 n' /\ busy pid n'.
Lemma via_pre : forall n n1 n2, To fc n n1 -> via n1 n2 -> via n n2.
Proof.
  intros n n1 n2 T (pid & m1 & m2 & m3 & T1 & X). exists pid, m1, m2, m3. split; [eapply to_trans; eassumption | exact X].
Qed.
Lemma via_post : forall n n1 n2, via n n1 -> To fq n1 n2 -> via n n2.
Proof.
  intros n n1 n2 (pid & m1 & m2 & m3 & T1 & T2 & T3 & T4 & B) T. exists pid, m1, m2, m3. split; [exact T1|]. split; [exact T2|]. split; [exact T3|].
  split; [eapply to_trans; [exact T4 | eapply to_mono; [apply fle_fq | exact T]]|]. eapply busy_steps; [apply T | reflexivity | apply T4 | exact B].
Qed.
Lemma via_to : forall n n', via n n' -> To ff n n'.
Proof.
  intros n n' (pid & m1 & m2 & m3 & T1 & T2 & T3 & T4 & _). apply (to_mono _ _ _ _ _ _ (fle_fs pid)) in T2. apply (to_mono _ _ _ _ _ _ (fle_fu pid)) in T3.
  apply (to_mono _ _ _ _ _ _ (fle_fr_ff pid)) in T4. apply (to_mono _ _ _ _ _ _ fle_fc_ff) in T1.
  eapply to_trans; [exact T1|]. eapply to_trans; [exact T2|]. eapply to_trans; [exact T3 | exact T4].
Qed.
(** only the last response changes *)
Definition fl0 : flags := mk_flags false false no no no no no no true.
(** an event with a response: the address and the time of the last response allow it, and are set before *)
Definition rsp (n n' : node) : Prop :=
  exists pid p m1 m2 sk la ra d, ev = EvRecv sk la ra d /\ To fc n m1 /\ find_id (n_peers m1) pid = Some p /\
    (p_lhr_to p <= n_now m1 \/ p_lhr_addr p <> Some ra) /\
    m2 = set_n_peers (upd_id (n_peers m1) pid (fun p => set_p_lhr_to (n_now m1 + MIN_HANDSHAKE_INTERVAL) (set_p_lhr_addr (Some ra) p))) m1 /\
    Inv m2 /\ To (fp (N.eqb pid)) m2 n'.
Lemma rsp_pre : forall n n1 n2, To fc n n1 -> rsp n1 n2 -> rsp n n2.
Proof.
  intros n n1 n2 T (pid & p & m1 & m2 & sk & la & ra & d & E & T1 & X). exists pid, p, m1, m2, sk, la, ra, d. split; [exact E|]. split; [eapply to_trans; eassumption | exact X].
Qed.
Lemma rsp_post : forall n n1 n2, rsp n n1 -> To fq n1 n2 -> rsp n n2.
Proof.
  intros n n1 n2 (pid & p & m1 & m2 & sk & la & ra & d & E & T1 & Hf & G & Em & I2 & T2) T. exists pid, p, m1, m2, sk, la, ra, d.
  split; [exact E|]. split; [exact T1|]. split; [exact Hf|]. split; [exact G|]. split; [exact Em|]. split; [exact I2|].
  eapply to_trans; [exact T2 | eapply to_mono; [apply fle_fq | exact T]].
Qed.
Lemma rsp_to : forall n n', rsp n n' -> Inv n -> To fg n n'.
Proof.
  intros n n' (pid & p & m1 & m2 & sk & la & ra & d & E & T1 & Hf & G & Em & I2 & T2) I.
  apply (to_mono _ _ _ _ _ _ fle_fc_fg) in T1. apply (to_mono _ _ _ _ _ _ (fle_fp_fg _)) in T2. eapply to_trans; [exact T1|]. eapply to_trans; [|exact T2].
  apply to_mono with fl0; [fle|]. apply to_intro; [|reflexivity | reflexivity | apply T1 | exact I2].
  subst m2. apply steps_one. apply N_peer with p; [exact Hf | apply ps_lhr; left; reflexivity].
Qed.
(** no new session, or one *)
Definition tov (n n' : node) : Prop := To fc n n' \/ via n n' \/ rsp n n'.
Lemma tov_inv : forall n n', tov n n' -> Inv n'.
Proof. intros n n' [T | [(pid & m1 & m2 & m3 & _ & _ & _ & T & _) | (pid & p & m1 & m2 & sk & la & ra & d & _ & _ & _ & _ & _ & _ & T)]]; apply T. Qed.
Lemma tov_pre : forall n n1 n2, To fc n n1 -> tov n1 n2 -> tov n n2.
Proof. intros n n1 n2 T [X | [X | X]]; [left; eapply to_trans; eassumption | right; left; eapply via_pre; eassumption | right; right; eapply rsp_pre; eassumption]. Qed.
Lemma tov_post : forall n n1 n2, tov n n1 -> To fq n1 n2 -> tov n n2.
Proof.
  intros n n1 n2 [X | [X | X]] T; [left; eapply to_trans; [exact X | eapply to_mono; [apply fle_fq | exact T]] | right; left; eapply via_post; eassumption | right; right; eapply rsp_post; eassumption].
Qed.
Lemma tov_quiet : forall n n', To fq n n' -> tov n n'.
Proof. intros n n' T. left. eapply to_mono; [apply fle_fq | exact T]. Qed.
Lemma tov_ff : forall n n', tov n n' -> Inv n -> To ff n n'.
Proof. intros n n' [X | [X | X]] I; [eapply to_mono; [apply fle_fc_ff | exact X] | apply via_to; exact X | eapply to_mono; [apply fle_fg_ff | apply rsp_to; assumption]]. Qed.

Lemma establish_to : forall pid method sk la ra initiator compat hk key sigma serial b n n',
  establish P pid method sk la ra initiator compat hk key sigma serial n = Ok (b, n') -> Inv n -> en pid n ->
  ready n pid method initiator compat hk key sigma serial ra ->
  (forall p, find_id (n_peers n) pid = Some p -> may_connect P (n_peers n) p = true) ->
  tov n n' /\ (b = true -> forall q, find_id (n_peers n') pid = Some q ->
    exists conf sid, In (n_now n', OSession pid (p_key q) conf initiator serial hk key sigma method sid ra) (n_out n')).
Proof.
  intros pid method sk la ra initiator compat hk key sigma serial b n n' H I He R Hm. unfold establish in H.
  bind H as p m H1. apply rd_ok in H1. destruct H1 as [Hf ->].
  destruct (serial <=? p_serial p)%N eqn:Eser; [apply ret_ok in H; destruct H as [<- ->]; split; [left; apply to_refl; exact I | discriminate]|].
  bind H as ok m1 H1. apply claim_address_to with (ev := ev) in H1; [|exact I | exact He]. destruct H1 as [T1 X1].
  pose proof (to_en _ _ _ _ _ pid T1 eq_refl I He) as He1. pose proof (act_en _ _ _ (proj2 T1) He1) as Ha1.
  destruct ok; cbn [negb] in H.
  2:{ bind H as u m2 H2. apply ret_ok in H. destruct H as [<- ->]. split; [|discriminate]. apply peer_reset_to with (ev := ev) in H2; [|apply T1]. left. tchain. }
  destruct (X1 eq_refl) as (K1 & A1 & C1). clear X1.
  pose proof (ready_kept _ _ _ _ _ _ _ _ _ _ _ R K1 C1) as R1.
  bind H as ok m2 H2. pose proof H2 as H2'. apply new_session_to in H2; [|apply T1 | exact Ha1 | exact R1 | exact A1 |].
  2:{ intros q Hq. destruct (K1 q Hq) as (q0 & Hq0 & E). rewrite Hf in Hq0. injection Hq0 as <-. apply kf_fields in E. destruct E as (_ & _ & _ & E & _). rewrite E. lia. }
  destruct H2 as [T2 X2].
  pose proof (to_en _ _ _ _ _ pid T2 eq_refl (proj2 T1) He1) as He2. pose proof (act_en _ _ _ (proj2 T2) He2) as Ha2.
  destruct ok; cbn [negb] in H.
  2:{ bind H as u m3 H3. apply ret_ok in H. destruct H as [<- ->]. split; [|discriminate]. pose proof (peer_reset_unest P ev _ _ _ _ H3 (i_0 _ _ (proj2 T2))) as U3.
      apply peer_reset_to with (ev := ev) in H3; [|apply T2]. right. left. exists pid, m1, m2, m2. split; [exact T1|]. split; [exact T2|].
      split; [apply to_refl; apply T2|]. split; [exact H3 | apply unest_busy; exact U3]. }
  destruct (X2 eq_refl) as (A2 & C2 & (sid & st & Hs2 & Hv2) & Q2 & O2). clear X2.
  bind H as ok m3 H3. apply set_established_to in H3; [|apply T2 | exact Ha2 |].
  2:{ intros q Hq. split; [|split; [rewrite (Hs2 q Hq); discriminate | rewrite (A2 q Hq); discriminate]].
      (* the groups and the state are those of the beginning *)
      pose proof (Q2 q Hq) as Hq1.
      destruct Hq1 as (q1 & Hq1 & E1 & E2). destruct (K1 q1 Hq1) as (q0 & Hq0 & E). rewrite Hf in Hq0. injection Hq0 as <-. apply kf_fields in E.
      destruct E as (_ & E3 & _ & _ & _ & _ & E4 & _).
      eapply (may_connect_steps P ev (fs pid) m1 m2 q1 q (to_steps _ _ _ _ _ T2) (fun _ => eq_refl) (i_0 _ _ (proj2 T1)) E1 E2).
      eapply (may_connect_steps P ev fc n m1 p q1 (to_steps _ _ _ _ _ T1) (fun _ => eq_refl) (i_0 _ _ I) E4 E3). exact (Hm p Hf). }
  destruct H3 as (T3 & C3 & S3).
  pose proof (to_en _ _ _ _ _ pid T3 eq_refl (proj2 T2) He2) as He3.
  destruct ok; cbn [negb] in H.
  2:{ bind H as u m4 H4. apply ret_ok in H. destruct H as [<- ->]. split; [|discriminate]. pose proof (peer_reset_unest P ev _ _ _ _ H4 (i_0 _ _ (proj2 T3))) as U4.
      apply peer_reset_to with (ev := ev) in H4; [|apply T3]. right. left. exists pid, m1, m2, m3. split; [exact T1|]. split; [exact T2|].
      split; [exact T3|]. split; [exact H4 | apply unest_busy; exact U4]. }
  bind H as now m4 H4. apply gets_ok in H4. destruct H4 as [-> ->].
  bind H as u4 m4 H4. pose proof (kc_wr _ _ _ _ _ H4) as C4. pose proof (wr_ok _ _ _ _ _ H4) as Hw4.
  assert (Hs4 : has_sess pid sid method st m4).
  { intros q Hq. destruct (wr_found _ _ _ _ _ H4 ltac:(intros z; reflexivity) q Hq) as (q0 & Hq0 & ->). destruct (S3 q0 Hq0) as (q1 & Hq1 & E).
    cbn [p_sess set_p_eh_to]. rewrite E. exact (Hs2 q1 Hq1). }
  assert (B4 : busy pid m4).
  { intros q Hq _. destruct (wr_found _ _ _ _ _ H4 ltac:(intros z; reflexivity) q Hq) as (q0 & _ & ->). destruct C4 as (_ & _ & _ & E4). rewrite E4. reflexivity. }
  apply wr_to with (P := P) (ev := ev) in H4; [|apply T3 | intros q Hq; apply ps_eh].
  pose proof (to_en _ _ _ _ _ pid H4 eq_refl (proj2 T3) He3) as He4.
  bind H as u5 m5 H5. apply ret_ok in H. destruct H as [_ ->].
  assert (T5 : To fq m4 m5).
  { destruct initiator.
    - eapply schedule_handshake_default_to; [exact H5 | apply H4 | eapply act_en; [apply H4 | exact He4]].
    - eapply session_send_to; [exact H5 | apply H4|]. intros q s Hq Hs. rewrite (Hs4 q Hq) in Hs. injection Hs as <-. cbn [ss_state].
      replace (n_now m4) with (n_now m1); [exact Hv2|]. destruct C2 as (_ & _ & _ & N2), C3 as (_ & _ & _ & N3), C4 as (_ & _ & _ & N4). congruence. }
  split.
  2:{ intros _ q Hq. assert (S25 : St ff m2 m5).
      { apply to_steps. eapply to_trans; [eapply to_mono; [|exact T3]; fle|]. eapply to_trans; eapply to_mono; [apply fle_fq | exact H4 | apply fle_fq | exact T5]. }
      destruct Hw4 as (p3 & Hp3 & _). destruct (S3 p3 Hp3) as (q2 & Hq2 & _). destruct (fix_steps _ _ _ _ _ _ _ _ S25 (i_0 _ _ (proj2 T2)) Hq2 Hq) as (Ek & _).
      destruct (O2 q2 Hq2) as (conf & sid' & Hin). exists conf, sid'. rewrite Ek. destruct (out_steps _ _ _ _ _ S25) as [l ->]. apply in_or_app. right.
      rewrite (now_steps _ _ _ _ _ S25). destruct C2 as (_ & _ & _ & N2). rewrite N2. exact Hin. }
  right. left. exists pid, m1, m2, m3. split; [exact T1|]. split; [exact T2|]. split; [exact T3|]. split; [clear T2 T3 T1; tchain|].
  eapply busy_steps; [apply T5 | reflexivity | apply H4 | exact B4].
Qed.

(** ** Handling of handshakes *)
Definition hs_ctx (sk : sock) (la ra : addr) (w : hsview) : Prop :=
  exists d pkt ctl h, ev = EvRecv sk la ra d /\ classify d = PHandshake pkt ctl /\
    handshake_handle (c_hs P) pkt ctl = Ok (HProtocol h) /\ view pkt h = Ok w.

Lemma send_error_to : forall sk ra pid x n n', send_error sk ra pid n = Ok (x, n') -> Inv n -> oact pid n -> To fq n n'.
Proof. intros sk ra pid x n n' H I Ha. eapply send_packet_to; [exact H | exact I | exact Ha | intros a _; exact Logic.I]. Qed.

Lemma handshake_reply_to : forall sk la ra pid hk w x n n', handshake_reply P sk la ra pid hk w n = Ok (x, n') -> Inv n -> en pid n -> fresh n ->
  hs_ctx sk la ra w -> w_sender_hk w = Some hk ->
  (match w_recipient w with Some rk => rk = c_own P | None => True end) ->
  (forall p, find_id (n_peers n) pid = Some p -> w_sender w = Some (p_key p) /\ (match w_mtu w with Some m => m = peer_mtu P p | None => True end) /\
     p_eh_to p <= n_now n /\ (is_dynamic p = true -> n_now n < p_valid_to p) /\ may_connect P (n_peers n) p = true) ->
  tov n n'.
Proof.
  intros sk la ra pid hk w x n n' H I He Hfr (d & pkt & ctl & h & Eev & Ecl & Ehs & Ew) Ehk Erec Hp. unfold handshake_reply in H.
  destruct (w_recipient w) as [rk|] eqn:Er; [|apply ret_ok in H; destruct H as [_ ->]; apply tov_quiet; apply to_refl; exact I]. subst rk.
  destruct (w_recipient_hk w) as [rh|] eqn:Erh; [|apply ret_ok in H; destruct H as [_ ->]; apply tov_quiet; apply to_refl; exact I].
  destruct (w_mac w) as [[mac tlv0]|] eqn:Emac; [|apply ret_ok in H; destruct H as [_ ->]; apply tov_quiet; apply to_refl; exact I].
  bind H as now m H1. apply gets_ok in H1. destruct H1 as [-> ->].
  bind H as cur m H1. apply gets_ok in H1. destruct H1 as [-> ->].
  bind H as prev m H1. apply gets_ok in H1. destruct H1 as [-> ->].
  pose (sel := if key_matches P (n_now n) (n_cur n) rh then Some (n_cur n) else if key_matches P (n_now n) (n_prev n) rh then Some (n_prev n) else None).
  assert (Hk : forall k, sel = Some k -> (k = n_cur n \/ k = n_prev n) /\ n_now n < k_valid_till k /\ c_eph P (k_serial k) = rh).
  { assert (Hkm : forall k, key_matches P (n_now n) k rh = true -> n_now n < k_valid_till k /\ c_eph P (k_serial k) = rh).
    { intros k Hk. unfold key_matches in Hk. apply andb_prop in Hk. destruct Hk as [A B]. apply bytes_eqb_true in B. split; [|exact B]. unfold timed_out in A. lia. }
    intros k Ek. unfold sel in Ek. destruct (key_matches P (n_now n) (n_cur n) rh) eqn:E1.
    - injection Ek as <-. split; [left; reflexivity | exact (Hkm _ E1)].
    - destruct (key_matches P (n_now n) (n_prev n) rh) eqn:E2; [|discriminate]. injection Ek as <-. split; [right; reflexivity | exact (Hkm _ E2)]. }
  fold sel in H. destruct sel as [k|]; [|apply ret_ok in H; destruct H as [_ ->]; apply tov_quiet; apply to_refl; exact I].
  destruct (Hk k eq_refl) as (Hk1 & Hk2 & Hk3). clear Hk.
  destruct (N.eqb_spec (w_type w) 2) as [Ety|Ety].
  - unfold finish_handshake in H. bind H as p m H1. apply rd_ok in H1. destruct H1 as [Hf ->]. destruct (Hp p Hf) as (P1 & P2 & P3 & P4 & P5).
    destruct (get_method_by_name_list _ _) as [method|] eqn:Em.
    2:{ apply tov_quiet. eapply send_error_to; [exact H | exact I | eapply act_en; eassumption]. }
    destruct (c_shared P true (k_serial k) (p_key p) hk) as [[sigma key]|] eqn:Esh; [|apply ret_ok in H; destruct H as [_ ->]; apply tov_quiet; apply to_refl; exact I].
    destruct (bytes_eqb (c_mac P key tlv0) mac) eqn:Ebm; cbn [negb] in H; [|apply ret_ok in H; destruct H as [_ ->]; apply tov_quiet; apply to_refl; exact I].
    apply bytes_eqb_true in Ebm.
    bind H as ok m1 H1. apply establish_to in H1; [|exact I | exact He | |intros q Hq; rewrite Hf in Hq; injection Hq as <-; exact P5].
    2:{ constructor.
        - intros q Hq. rewrite Hf in Hq. injection Hq as <-. exists sk, la, d, pkt, ctl, h, w, mac, tlv0. repeat (split; [assumption|]).
          split; [rewrite Erh, Hk3; reflexivity|]. split; [exact Emac|]. split; [exact Ebm|]. split; [reflexivity|]. split; [exact P2 | exact Em].
        - intros q Hq. rewrite Hf in Hq. injection Hq as <-. exact Esh.
        - exists k. split; [exact Hk1 | split; [reflexivity | exact Hk2]].
        - exact Hfr.
        - intros q Hq. rewrite Hf in Hq. injection Hq as <-. exact P3.
        - intros q Hq. rewrite Hf in Hq. injection Hq as <-. exact P4. }
    destruct H1 as [H1 Ho]. pose proof (to_en _ _ _ _ _ pid (tov_ff _ _ H1 I) eq_refl I He) as He1. pose proof (tov_inv _ _ H1) as I1.
    unfold when in H. destruct ok; [|apply ret_ok in H; destruct H as [_ ->]; exact H1].
    bind H as p1 m2 H2. apply rd_ok in H2. destruct H2 as [Hf1 ->].
    apply send_packet_to with (P := P) (ev := ev) in H; [|exact I1 | eapply act_en; [exact I1 | exact He1] |]; [eapply tov_post; eassumption|].
    intros a _. destruct (Ho eq_refl p1 Hf1) as (conf & sid & Hin). exists p1, conf, (k_serial k), sigma, method, sid, ra. split; [exact Hf1|]. split; [exact Hin | reflexivity].
  - destruct (N.eqb_spec (w_type w) 3) as [Ety3|Ety3]; [|apply ret_ok in H; destruct H as [_ ->]; apply tov_quiet; apply to_refl; exact I].
    unfold handle_finish_handshake in H. bind H as p m H1. apply rd_ok in H1. destruct H1 as [Hf ->]. destruct (Hp p Hf) as (P1 & P2 & P3 & P4 & P5).
    destruct (get_method_by_name _ _) as [method|] eqn:Em.
    2:{ apply tov_quiet. eapply send_error_to; [exact H | exact I | eapply act_en; eassumption]. }
    bind H as c m1 H1. apply update_shared_to in H1; [|exact I]. destruct H1 as (T1 & K1 & C1 & Hc).
    destruct c as [c|]; [|apply ret_ok in H; destruct H as [_ ->]; apply tov_quiet; exact T1]. specialize (Hc c eq_refl p Hf).
    destruct (bytes_eqb (c_mac P (hc_key c) tlv0) mac) eqn:Ebm; cbn [negb] in H; [|apply ret_ok in H; destruct H as [_ ->]; apply tov_quiet; exact T1].
    apply bytes_eqb_true in Ebm. pose proof (to_en _ _ _ _ _ pid T1 eq_refl I He) as He1.
    assert (R : ready n pid method false (compat_of (w_flags w)) hk (hc_key c) (hc_sigma c) (k_serial k) ra).
    { constructor.
      - intros q Hq. rewrite Hf in Hq. injection Hq as <-. exists sk, la, d, pkt, ctl, h, w, mac, tlv0. repeat (split; [assumption|]).
        split; [rewrite Erh, Hk3; reflexivity|]. split; [exact Emac|]. split; [exact Ebm|]. split; [reflexivity|]. split; [exact P2 | exact Em].
      - intros q Hq. rewrite Hf in Hq. injection Hq as <-. exact Hc.
      - exists k. split; [exact Hk1 | split; [reflexivity | exact Hk2]].
      - exact Hfr.
      - intros q Hq. rewrite Hf in Hq. injection Hq as <-. exact P3.
      - intros q Hq. rewrite Hf in Hq. injection Hq as <-. exact P4. }
    bind H as ok m2 H2. apply establish_to in H2; [|apply T1 | exact He1 | exact (ready_kept _ _ _ _ _ _ _ _ _ _ _ R K1 C1) |].
    2:{ intros q Hq. destruct (K1 q Hq) as (q0 & Hq0 & E). rewrite Hf in Hq0. injection Hq0 as <-. apply kf_fields in E. destruct E as (_ & E3 & _ & _ & _ & _ & E4 & _).
        eapply (may_connect_steps P ev fq n m1 p q (to_steps _ _ _ _ _ T1) (fun _ => eq_refl) (i_0 _ _ I) E4 E3). exact P5. }
    destruct H2 as [H2 _]. apply wr_to with (P := P) (ev := ev) in H; [|exact (tov_inv _ _ H2) | intros q Hq; apply ps_cache; trivial].
    eapply tov_pre; [eapply to_mono; [apply fle_fq | exact T1]|]. eapply tov_post; eassumption.
Qed.

Lemma handshake_from_to : forall sk la ra pid w x n n', handshake_from P sk la ra pid w n = Ok (x, n') -> Inv n -> en pid n -> fresh n ->
  hs_ctx sk la ra w -> (forall p, find_id (n_peers n) pid = Some p -> w_sender w = Some (p_key p)) -> tov n n'.
Proof.
  intros sk la ra pid w x n n' H I He Hfr Hctx Hsend. unfold handshake_from in H.
  bind H as p m H1. apply rd_ok in H1. destruct H1 as [Hf ->].
  destruct (match w_mtu w with Some m => negb (N.eqb m (peer_mtu P p)) | None => false end) eqn:Emtu.
  { apply tov_quiet. eapply send_error_to; [exact H | exact I | eapply act_en; eassumption]. }
  destruct (w_sender_hk w) as [hk|] eqn:Ehk; [|apply ret_ok in H; destruct H as [_ ->]; apply tov_quiet; apply to_refl; exact I].
  bind H as l m H1. apply gets_ok in H1. destruct H1 as [-> ->].
  bind H as now m H1. apply gets_ok in H1. destruct H1 as [-> ->].
  destruct (may_connect P (n_peers n) p) eqn:Emc; cbn [negb] in H; [|apply ret_ok in H; destruct H as [_ ->]; apply tov_quiet; apply to_refl; exact I].
  destruct (timed_out (n_now n) (p_eh_to p)) eqn:Eeh; cbn [negb] in H; [|apply ret_ok in H; destruct H as [_ ->]; apply tov_quiet; apply to_refl; exact I].
  destruct (match w_recipient w with Some rk => negb (bytes_eqb (c_own P) rk) | None => false end) eqn:Erec; [apply ret_ok in H; destruct H as [_ ->]; apply tov_quiet; apply to_refl; exact I|].
  bind H as go m H1.
  assert (A : To (fr pid) n m /\ (go = true -> dtrk pid n m /\ kc n m /\ (forall q, find_id (n_peers m) pid = Some q -> is_dynamic q = true -> n_now m < p_valid_to q))).
  { destruct (is_dynamic p) eqn:Ed.
    - apply handle_dynamic_to in H1; [|exact I | destruct Hctx as (d & pkt & ctl & h & Eev & _); exists d; exact Eev | intros q Hq; congruence]. destruct H1 as [T X]. split; [exact T|]. intros Eg. destruct (X Eg) as (D & V & C).
      split; [exact D|]. split; [exact C|]. intros q Hq _. exact (V q Hq).
    - apply ret_ok in H1. destruct H1 as [_ ->]. split; [apply to_refl; exact I|]. intros _. split; [apply dtrk_same; reflexivity|]. split; [apply kc_refl|].
      intros q Hq Hd. congruence. }
  destruct A as [T1 A]. pose proof (to_en _ _ _ _ _ pid T1 eq_refl I He) as He1.
  destruct go; cbn [negb] in H; [|apply ret_ok in H; destruct H as [_ ->]; left; tchain]. destruct (A eq_refl) as (D1 & C1 & V1). clear A.
  destruct (N.eqb (w_type w) 1).
  - bind H as p1 m1 H2. apply rd_ok in H2. destruct H2 as [Hf1 ->].
    destruct (negb (timed_out (n_now n) (p_lhr_to p1)) && addr_eqb (Some ra) (p_lhr_addr p1))%bool eqn:Eg; [apply ret_ok in H; destruct H as [_ ->]; left; tchain|].
    bind H as u m2 H2. destruct C1 as (_ & _ & _ & Enow). pose proof H2 as H2'. apply wr_ok in H2. destruct H2 as (p2 & Hf2 & Em2). rewrite Hf1 in Hf2. injection Hf2 as <-.
    rewrite <- Enow in Em2. assert (S2 : St fl0 m m2) by (rewrite Em2; apply steps_one; apply N_peer with p1; [exact Hf1 | apply ps_lhr; left; reflexivity]).
    assert (I2 : Inv m2) by (apply (inv_quiet _ _ _ _ _ S2); [split; [reflexivity | intros q; reflexivity] | apply T1]).
    apply respond_handshake_to in H; [|exact I2 | eapply act_en; [exact I2 | eapply en_steps; [exact S2 | reflexivity | apply T1 | exact He1]]|].
    + right. right. destruct Hctx as (d & pkt & ctl & h & Eev & _). exists pid, p1, m, m2, sk, la, ra, d. split; [exact Eev|].
      split; [eapply to_mono; [apply fle_fr_fc | exact T1]|]. split; [exact Hf1|]. split; [|split; [exact Em2 | split; [exact I2 | exact H]]].
      rewrite Enow. apply andb_false_iff in Eg. destruct Eg as [Eg | Eg]; [left; unfold timed_out in Eg; lia | right; intros E; rewrite E, (proj2 (addr_eqb_true (Some ra) (Some ra)) eq_refl) in Eg; discriminate].
    + intros q Hq. destruct Hctx as (d & pkt & ctl & h & Eev & _). rewrite Eev. split; [reflexivity|].
      destruct (wr_found _ _ _ _ _ H2' ltac:(intros z; reflexivity) q Hq) as (q1 & Hq1 & ->). destruct (D1 q1 Hq1) as (q0 & Hq0 & E). rewrite Hf in Hq0. injection Hq0 as <-.
      unfold kd in E. injection E as E1 E2 E3 E4 E5 E6 E7. cbn [p_eh_to set_p_lhr_to set_p_lhr_addr]. rewrite E5. apply kc_wr in H2'. destruct H2' as (_ & _ & _ & N2). rewrite N2, Enow.
      unfold timed_out in Eeh. lia.
  - apply handshake_reply_to in H; [eapply tov_pre; [eapply to_mono; [apply fle_fr_fc | exact T1] | exact H] | apply T1 | exact He1 | apply (fresh_steps _ _ _ _ _ (to_steps _ _ _ _ _ T1) Hfr) | exact Hctx | exact Ehk | |].
    + destruct (w_recipient w) as [rk|]; [|trivial]. destruct (bytes_eqb (c_own P) rk) eqn:E; [|discriminate]. apply bytes_eqb_true in E. congruence.
    + intros q Hq. destruct (D1 q Hq) as (q0 & Hq0 & E). rewrite Hf in Hq0. injection Hq0 as <-. unfold kd in E. injection E as E1 E2 E3 E4 E5 E6 E7.
      destruct C1 as (_ & _ & _ & Enow). split; [rewrite E1; exact (Hsend p Hf)|]. split.
      * replace (peer_mtu P q) with (peer_mtu P p) by (unfold peer_mtu; rewrite E7; reflexivity). destruct (w_mtu w) as [mt|]; [|trivial]. lia.
      * split; [rewrite E5, Enow; unfold timed_out in Eeh; lia|]. split; [exact (V1 q Hq)|].
        eapply (may_connect_steps P ev (fr pid) n m p q (to_steps _ _ _ _ _ T1) (fun _ => eq_refl) (i_0 _ _ I) E6 E2 Emc).
Qed.

Lemma find_key_spec : forall l key a acc q, find_key l key a acc = MatchPeer q ->
  acc = Some q \/ exists p, In p l /\ p_id p = q /\ is_enabled p = true /\ p_key p = key.
Proof.
  induction l as [|x l IH]; intros key a acc q H; cbn [find_key] in H.
  - destruct acc as [y|]; [|discriminate]. left. congruence.
  - assert (Hrec : forall acc', find_key l key a acc' = MatchPeer q -> acc' = Some q \/ exists p, In p (x :: l) /\ p_id p = q /\ is_enabled p = true /\ p_key p = key).
    { intros acc' Hr. destruct (IH _ _ _ _ Hr) as [E | (p & Hp & E)]; [left; exact E | right; exists p; split; [right; exact Hp | exact E]]. }
    destruct (is_enabled x) eqn:Een; cbn [negb] in H; [|exact (Hrec _ H)].
    destruct (bytes_eqb (p_key x) key) eqn:Ek.
    + destruct (negb (matches_address x a)); [discriminate|]. destruct (Hrec _ H) as [E | E]; [|right; exact E]. right. exists x. injection E as <-.
      apply bytes_eqb_true in Ek. split; [left; reflexivity|]. repeat split; assumption.
    + destruct (owns_address x a); [discriminate | exact (Hrec _ H)].
Qed.

Lemma match_sender_key_spec : forall sk a pid key r n n', match_sender_key sk a pid key n = Ok (r, n') -> Inv n -> oact pid n ->
  n' = n /\ forall q, r = MatchPeer q -> en q n /\ forall p, find_id (n_peers n) q = Some p -> p_key p = key.
Proof.
  intros sk a pid key r n n' H I Ha. unfold match_sender_key in H. bind H as u m H1.
  assert (E : m = n).
  { destruct sk as [k|o i]; [apply ret_ok in H1; exact (proj2 H1)|]. destruct pid as [pid|]; [|discriminate]. destruct (N.eqb o pid); [|discriminate]. apply ret_ok in H1. exact (proj2 H1). }
  subst m. bind H as l m H2. apply gets_ok in H2. destruct H2 as [-> ->].
  assert (Hfk : forall q, find_key (n_peers n) key a None = MatchPeer q -> en q n /\ forall p, find_id (n_peers n) q = Some p -> p_key p = key).
  { intros q Hq. destruct (find_key_spec _ _ _ _ _ Hq) as [E | (p & Hin & <- & E1 & E2)]; [discriminate|].
    pose proof (in_find n p (wf_ids _ (i_wf _ _ (i_0 _ _ I))) Hin) as Hf. split; intros p' Hp'; rewrite Hf in Hp'; injection Hp' as <-; assumption. }
  destruct pid as [pid|].
  - bind H as p m H2. apply rd_ok in H2. destruct H2 as [Hf ->]. destruct (bytes_eqb (p_key p) key) eqn:Ek.
    + apply ret_ok in H. destruct H as [<- ->]. split; [reflexivity|]. intros q E. injection E as <-. split; [exact (act_enabled _ _ _ I Ha)|].
      intros p' Hp'. rewrite Hf in Hp'. injection Hp' as <-. apply bytes_eqb_true. exact Ek.
    + destruct (owns_address p a); apply ret_ok in H; destruct H as [<- ->]; split; try reflexivity; [discriminate | exact Hfk].
  - apply ret_ok in H. destruct H as [<- ->]. split; [reflexivity | exact Hfk].
Qed.

Lemma maintenance_to : forall x n n', maintenance n = Ok (x, n') -> Inv n -> To fq n n' /\ fresh n'.
Proof.
  intros x n n' H I. split; [apply to_quiet; [eapply maintenance_steps; exact H | exact I]|].
  unfold maintenance in H. apply modn_ok in H. subst. unfold fresh. destruct (timed_out _ _) eqn:E; cbn.
  - lia.
  - unfold timed_out in E. lia.
Qed.

Lemma proto_handshake_to : forall sk la ra pid w x n n', proto_handshake P sk la ra pid w n = Ok (x, n') -> Inv n -> oact pid n ->
  hs_ctx sk la ra w -> tov n n'.
Proof.
  intros sk la ra pid w x n n' H I Ha Hctx. unfold proto_handshake in H. bind H as u m H1. apply maintenance_to in H1; [|exact I]. destruct H1 as [H1 Hfr].
  destruct (w_sender w) as [key|] eqn:Es; [|apply ret_ok in H; destruct H as [_ ->]; left; tchain].
  assert (Ha1 : oact pid m) by (destruct pid as [pid|]; [eapply act_quiet; eassumption | exact Logic.I]).
  bind H as mr m1 H2. apply match_sender_key_spec in H2; [|apply H1 | exact Ha1]. destruct H2 as [-> Hmr].
  destruct mr as [q| |].
  - destruct (Hmr q eq_refl) as [He Hk]. apply handshake_from_to in H; [eapply tov_pre; [eapply to_mono; [apply fle_fq | exact H1] | exact H] | apply H1 | exact He | exact Hfr | exact Hctx|].
    intros p Hp. rewrite (Hk p Hp). exact Es.
  - apply ret_ok in H. destruct H as [_ ->]. left. tchain.
  - bind H as id m2 H3. apply add_dynamic_to in H3; [|apply H1]. destruct H3 as [T3 X3]. destruct id as [id|]; [|apply ret_ok in H; destruct H as [_ ->]; left; tchain].
    destruct (X3 id eq_refl) as [He Hk]. apply handshake_from_to in H; [eapply tov_pre; [|exact H]; tchain | apply T3 | exact He | apply (fresh_steps _ _ _ _ _ (to_steps _ _ _ _ _ T3) Hfr) | exact Hctx|].
    intros p Hp. rewrite (Hk p Hp). exact Es.
Qed.

Lemma verify_return_to : forall j ok x n n', verify_return P j ok n = Ok (x, n') -> Inv n -> verdict_of ev n (v_peer j) (v_raddr j) ok -> (exists k ok', ev = EvVerified k ok') -> To (fp all) n n'.
Proof.
  intros j ok x n n' H I Hv (k0 & ok0 & Eev). unfold verify_return in H. bind H as l m H1. apply gets_ok in H1. destruct H1 as [-> ->].
  destruct (find_id (n_peers n) (v_peer j)) as [p|] eqn:Hf; [|apply ret_ok in H; destruct H as [_ ->]; apply to_refl; exact I].
  destruct (is_dynamic p) eqn:Ed; cbn [negb] in H; [|discriminate]. assert (Ei : p_id p = v_peer j) by (apply find_id_in in Hf; exact (proj2 Hf)).
  rewrite Ei in H. bind H as u m1 H1. bind H as u2 m2 H2.
  assert (He : en (v_peer j) n).
  { intros q Hq. rewrite Hf in Hq. injection Hq as <-. apply is_dyn_true in Ed. unfold is_enabled. rewrite Ed. reflexivity. }
  destruct (verdict_to _ _ _ _ _ _ n _ _ Hf Ed Hv H1 H2 I) as (T2 & _ & _ & _).
  destruct ok; cbn [negb] in H; [|apply ret_ok in H; destruct H as [_ ->]; tchain].
  bind H as now m3 H3. apply gets_ok in H3. destruct H3 as [-> ->].
  pose proof (to_en _ _ _ _ _ (v_peer j) T2 eq_refl I He) as He2.
  assert (Hdy : forall q, find_id (n_peers m2) (v_peer j) = Some q -> is_dynamic q = true).
  { intros q1 Hq1. destruct (fix_steps _ _ _ _ _ _ _ _ (to_steps _ _ _ _ _ T2) (i_0 _ _ I) Hf Hq1) as (_ & _ & E & _). unfold is_dynamic in *. congruence. }
  bind H as u3 m3 H3. pose proof H3 as H3'. apply wr_to with (P := P) (ev := ev) in H3; [|apply T2 | intros q Hq; apply ps_lhr; right; exact (Hdy q Hq)].
  apply respond_handshake_to in H; [|apply H3 | eapply act_en; [apply H3 | eapply to_en; [exact H3 | reflexivity | apply T2 | exact He2]]|]; [tchain|].
  intros q Hq. assert (X : is_dynamic q = true).
  { destruct (wr_found _ _ _ _ _ H3' ltac:(intros z; reflexivity) q Hq) as (q1 & Hq1 & ->). destruct (fix_steps _ _ _ _ _ _ _ _ (to_steps _ _ _ _ _ T2) (i_0 _ _ I) Hf Hq1) as (_ & _ & E & _).
    unfold is_dynamic in *. cbn [p_conf set_p_lhr_to set_p_lhr_addr]. congruence. }
  rewrite Eev. exact X.
Qed.

Lemma receive_to : forall sk la ra d x n n', ev = EvRecv sk la ra d -> receive P sk la ra d n = Ok (x, n') -> Inv n ->
  tov n n' \/ exists pid p pkt y, To (fx pid) n n' /\ classify d = PData pkt y /\ find_id (n_peers n) pid = Some p /\
    is_established p = true /\ p_addr p = Some ra /\ p_laddr p = Some la.
Proof.
  intros sk la ra d x n n' Eev H I. unfold receive in H. bind H as l m H1. apply gets_ok in H1. destruct H1 as [-> ->].
  bind H as src m H1.
  assert (A : m = n /\ forall pid, src = Some pid -> oact pid n /\ forall q, pid = Some q -> exists p, find_id (n_peers n) q = Some p /\ p_addr p = Some ra).
  { destruct sk as [k|o i].
    - apply ret_ok in H1. destruct H1 as [<- ->]. split; [reflexivity|]. intros pid E. injection E as <-. unfold lookup_addr.
      destruct (find (fun p => addr_eqb (p_addr p) (Some ra)) (n_peers n)) as [p|] eqn:Ef; [|split; [exact Logic.I | discriminate]].
      apply find_some in Ef. destruct Ef as [Hin Hadr]. apply addr_eqb_true in Hadr. cbn [oact].
      pose proof (in_find n p (wf_ids _ (i_wf _ _ (i_0 _ _ I))) Hin) as Hf. split; [eapply used_act; [exact I | exact Hf | left; congruence]|].
      intros q E. injection E as <-. exists p. split; assumption.
    - bind H1 as p m1 H2. apply rd_ok in H2. destruct H2 as [Hf ->]. apply ret_ok in H1. destruct H1 as [<- ->]. split; [reflexivity|].
      intros pid E. destruct (addr_eqb (p_addr p) (Some ra)) eqn:Ea; [|discriminate]. injection E as <-. apply addr_eqb_true in Ea.
      cbn [oact]. split; [eapply used_act; [exact I | exact Hf | left; congruence]|].
      intros q E. injection E as <-. exists p. split; assumption. }
  clear H1. destruct A as [-> A]. destruct src as [pid|]; [|apply ret_ok in H; destruct H as [_ ->]; left; apply tov_quiet; apply to_refl; exact I]. destruct (A pid eq_refl) as [A1 A2]. clear A.
  cbv zeta in H. bind H as can m H2.
  assert (E : m = n /\ forall q p, pid = Some q -> find_id (n_peers n) q = Some p -> can = true -> is_established p = true /\ p_laddr p = Some la).
  { destruct pid as [pid|]; [|apply ret_ok in H2; split; [exact (proj2 H2) | discriminate]]. bind H2 as p m1 H3. apply rd_ok in H3. destruct H3 as [Hf ->]. apply ret_ok in H2.
    destruct H2 as [<- ->]. split; [reflexivity|]. intros q p0 E Hp0 Ec. injection E as <-. rewrite Hf in Hp0. injection Hp0 as <-. apply andb_prop in Ec.
    destruct Ec as [E1 E2]. split; [exact E1 | apply addr_eqb_true; exact E2]. }
  destruct E as [-> Hcan]. clear H2. bind H as fl m H2. apply gets_ok in H2. destruct H2 as [-> ->].
  assert (Hrest : (if (match pid with None => negb (n_floating n || allow_verify P) | Some _ => false end)%bool then ret tt
          else match classify d with
          | PHandshake pkt ctl =>
              o <- lift (handshake_handle (c_hs P) pkt ctl) ;;
              match o with
              | HIgnore => ret tt
              | HError _ _ _ => send_error sk ra pid
              | HProtocol h => w <- lift (view pkt h) ;; proto_handshake P sk la ra pid w
              end
          | PData _ _ =>
              backoff <- flip ;;
              when (negb backoff) (handshake_init (Some sk) (Some ra) None)
          | PInvalid => ret tt
          end) n = Ok (x, n') -> tov n n').
  { clear H. intros H. destruct (match pid with None => _ | Some _ => false end)%bool; [apply ret_ok in H; destruct H as [_ ->]; apply tov_quiet; apply to_refl; exact I|].
    destruct (classify d) as [pkt ctl|pkt y|] eqn:Ecl.
    - bind H as o m H1. apply lift_ok in H1. destruct H1 as [Eo ->]. destruct o as [|? ? ?|h].
      + apply ret_ok in H; destruct H as [_ ->]; apply tov_quiet; apply to_refl; exact I.
      + apply tov_quiet. eapply send_error_to; eassumption.
      + bind H as w m H1. apply lift_ok in H1. destruct H1 as [Ew ->]. eapply proto_handshake_to; [exact H | exact I | exact A1|].
        exists d, pkt, ctl, h. repeat split; assumption.
    - bind H as b m H1. apply flip_to with (P := P) (ev := ev) in H1; [|exact I]. unfold when in H. destruct (negb b).
      + apply handshake_init_to with (P := P) (ev := ev) in H; [left; tchain | apply H1 | exact Logic.I].
      + apply ret_ok in H; destruct H as [_ ->]. left. tchain.
    - apply ret_ok in H; destruct H as [_ ->]; apply tov_quiet; apply to_refl; exact I. }
  destruct pid as [pid|]; [|left; destruct (classify d); apply Hrest; exact H].
  destruct (classify d) as [pkt ctl|pkt y|]; try (left; apply Hrest; exact H).
  destruct can; [|left; apply Hrest; exact H].
  apply handle_recv_to with (ev := ev) in H; [|exact I]. right. destruct (A2 pid eq_refl) as (p & Hf & Hadr).
  destruct (Hcan pid p eq_refl Hf eq_refl) as [X1 X2]. exists pid, p, pkt, y. repeat (split; [assumption || reflexivity|]). exact X2.
Qed.

End Fun.
