(** Proofs of the theorems about nodes, part 6 continued: handshakes and events *)
From Verif Require Import Base BaseLemmas BufferModel NonceModel MethodModel HandshakeModel HandshakeSpec HandshakeProofs
  NodeModel NodeSteps NodeWf NodeInv NodeFun NodeFun2 NodeFun3 NodeFun4 NodeSpec NodeProofs NodeProofs2 NodeProofs3 NodeProofs4 NodeProofs5 NodeKeepSpec NodeKeep.
From Coq Require Import Lia ZifyBool ZifyNat ZifyN Sorted.
Local Open Scope Z_scope.

Lemma inv_ids : forall P n, inv P n -> ids_ok n.
Proof. intros P n I. exact (wf_ids _ (i_wf _ _ (i_0 _ _ I))). Qed.

(** ** Verification *)
Lemma kp_set_verifying : forall T q x n n', set_verifying q n = Ok (x, n') -> kp T q n n'.
Proof. intros T q x n n' H. unfold set_verifying in H. minv. kw. Qed.
Lemma kp_set_verified : forall T q ok x n n', set_verified q ok n = Ok (x, n') -> kp T q n n'.
Proof. intros T q ok x n n' H. unfold set_verified in H. minv. cbv zeta in *. kw. Qed.
#[global] Hint Resolve kp_set_verifying kp_set_verified : kp.
Lemma kp_verify_peer : forall T P q sk la ra hk fl v n n', verify_peer P q sk la ra hk fl n = Ok (v, n') -> kp T q n n'.
Proof.
  intros T P q sk la ra hk fl v n n' H. unfold verify_peer in H. destruct (c_verify P) as [[|]|]; [| | discriminate]; minv; kchain.
Qed.
#[global] Hint Resolve kp_verify_peer : kp.

(** the verification of [T] was refused, or could not be started *)
Definition refused (P : params) (T : N) (ra : addr) (n n' : node) : Prop :=
  exists p, find_id (n_peers n) T = Some p /\ is_dynamic p = true /\ p_verify_to p <= n_now n /\
    match c_verify P with
    | Some true => newly n n' (n_now n) (OVerdict T (p_key p) ra false)
    | Some false => forall t a, ~ newly n n' t (OVerifyStart T a)
    | None => False
    end.

Lemma delete_out : forall P q x n n', peer_delete P q n = Ok (x, n') ->
  n_now n' = n_now n /\ (n_out n' = n_out n \/ n_out n' = (n_now n, ODown q) :: n_out n).
Proof.
  intros P q x n n' H. unfold peer_delete in H. bind H as u m H1. apply modn_ok in H. subst n'. apply reset_peer_ok in H1.
  destruct H1 as (p & f & _ & _ & _ & ->). destruct (is_established p); split; try reflexivity; [right | left]; reflexivity.
Qed.
Lemma newly_self : forall n n' t o, n_out n' = n_out n -> ~ newly n n' t o.
Proof. intros n n' t o E (l & El & Hin). rewrite E in El. destruct l; [destruct Hin|]. apply (f_equal (@length _)) in El. rewrite app_length in El. cbn in El. lia. Qed.
Lemma newly_one : forall n n' t o t' o', n_out n' = (t', o') :: n_out n -> newly n n' t o -> o = o'.
Proof.
  intros n n' t o t' o' E (l & El & Hin). rewrite E in El. change ((t', o') :: n_out n) with ([(t', o')] ++ n_out n) in El. apply app_inv_tail in El. subst l.
  destruct Hin as [X | []]. congruence.
Qed.

Lemma dynamic_down : forall T P sk la ra q hk w b n n' p, handle_dynamic P sk la ra q hk w n = Ok (b, n') ->
  find_id (n_peers n) q = Some p -> is_dynamic p = true -> kp T q n n' \/ (q = T /\ b = false /\ refused P T ra n n').
Proof.
  intros T P sk la ra q hk w b n n' p H Hf Hd. unfold handle_dynamic in H. bind H as p0 m H1. apply rd_ok in H1. destruct H1 as [Hf0 ->].
  rewrite Hf in Hf0. injection Hf0 as <-. bind H as now m H1. apply gets_ok in H1. destruct H1 as [-> ->].
  destruct (_ || _)%bool eqn:Eg; [apply ret_ok in H; destruct H as [_ ->]; left; apply kp_refl|]. apply orb_false_elim in Eg. destruct Eg as [_ Ev].
  bind H as v m H1. pose proof (kp_verify_peer T _ _ _ _ _ _ _ _ _ _ H1) as K.
  destruct v as [[|]|]; [apply ret_ok in H; destruct H as [_ ->]; left; exact K | | apply ret_ok in H; destruct H as [_ ->]; left; exact K].
  bind H as u m1 H2. apply ret_ok in H. destruct H as [<- ->].
  destruct (N.eq_dec q T) as [->|Hq]; [|left; eapply kp_trans; [exact K | eapply kp_peer_delete; eassumption]].
  right. split; [reflexivity|]. split; [reflexivity|]. exists p. split; [exact Hf|]. split; [exact Hd|].
  split; [unfold timed_out in Ev; lia|]. destruct (delete_out _ _ _ _ _ H2) as [_ Eo]. clear K H2.
  unfold verify_peer in H1. destruct (c_verify P) as [[|]|]; [| | discriminate].
  - bind H1 as u1 m2 H2. unfold set_verifying in H2. bind H2 as now m3 H3. apply gets_ok in H3. destruct H3 as [-> ->]. apply wr_ok in H2.
    destruct H2 as (p1 & Hf1 & E2). rewrite Hf in Hf1. injection Hf1 as <-.
    bind H1 as p2 m4 H2. apply rd_ok in H2. destruct H2 as [Hf2 ->]. rewrite E2 in Hf2. cbn [n_peers set_n_peers] in Hf2.
    rewrite find_id_upd in Hf2 by (intros y; reflexivity). rewrite N.eqb_refl, Hf in Hf2. injection Hf2 as <-. cbn [p_key set_p_reset_to set_p_verify_to] in H1.
    bind H1 as ok m4 H2. apply flip_same in H2. destruct H2 as [l2 E4]. bind H1 as u3 m5 H2. apply emit_ok in H2.
    bind H1 as u4 m6 H3. apply ret_ok in H1. destruct H1 as [Eok ->]. injection Eok as ->. unfold set_verified in H3. bind H3 as now m7 H4. apply gets_ok in H4. destruct H4 as [-> ->].
    apply wr_ok in H3. destruct H3 as (p3 & _ & E6). assert (Em : n_out m6 = (n_now n, OVerdict T (p_key p) ra false) :: n_out n).
    { rewrite E6. cbn [n_out set_n_peers]. rewrite H2, E4, E2. reflexivity. }
    rewrite Em in Eo. destruct Eo as [Eo | Eo].
    + exists [(n_now n, OVerdict T (p_key p) ra false)]. split; [exact Eo | left; reflexivity].
    + exists [(n_now m6, ODown T); (n_now n, OVerdict T (p_key p) ra false)]. split; [exact Eo | right; left; reflexivity].
  - bind H1 as u1 m2 H2. unfold set_verifying in H2. bind H2 as now m3 H3. apply gets_ok in H3. destruct H3 as [-> ->]. apply wr_ok in H2.
    destruct H2 as (p1 & Hf1 & E2). bind H1 as p2 m4 H2. apply rd_ok in H2. destruct H2 as [Hf2 ->].
    bind H1 as st m4 H2. apply flip_same in H2. destruct H2 as [l2 E4]. destruct st; cbn [negb] in H1; [minv; discriminate|].
    apply ret_ok in H1. destruct H1 as [_ ->]. assert (Em : n_out m4 = n_out n) by (rewrite E4, E2; reflexivity). rewrite Em in Eo.
    intros t a X. destruct Eo as [Eo | Eo]; [exact (newly_self _ _ _ _ Eo X)|]. apply (newly_one _ _ _ _ _ _ Eo) in X. discriminate.
Qed.

Lemma kp_respond_handshake : forall T P sk ra q hk x n n', respond_handshake P sk ra q hk n = Ok (x, n') -> kp T q n n'.
Proof.
  intros T P sk ra q hk x n n' H. unfold respond_handshake in H. bind H as cur m H1. apply gets_ok in H1. destruct H1 as [-> ->].
  bind H as c m H1. apply (kp_update_shared T) in H1. apply (kp_trans _ _ _ _ _ H1). destruct c; [|apply ret_ok in H; destruct H as [_ ->]; apply kp_refl].
  bind H as p m' H1'. apply rd_ok in H1'. destruct H1' as [_ ->]. eapply kp_send_packet; [exact H | reflexivity | discriminate].
Qed.
#[global] Hint Resolve kp_respond_handshake : kp.

Lemma newly_now : forall (n m n' : node) t o, n_out n' = n_out m -> newly n m t o -> newly n n' t o.
Proof. intros n m n' t o E (l & El & Hin). exists l. rewrite E. split; assumption. Qed.

Lemma from_down : forall ev T P sk la ra q w x n n', handshake_from P sk la ra q w n = Ok (x, n') -> inv P n -> (exists d, ev = EvRecv sk la ra d) ->
  nd T n n' \/
  (exists p, find_id (n_peers n) q = Some p /\ proves P n w p) /\ (q = T \/ moved T ra n) \/
  (q = T /\ refused P T ra n n' /\ n_now n' = n_now n /\ exists p, find_id (n_peers n) T = Some p /\ p_eh_to p <= n_now n).
Proof.
  intros ev T P sk la ra q w x n n' H I Hev. unfold handshake_from in H.
  bind H as p m H1. apply rd_ok in H1. destruct H1 as [Hf ->].
  destruct (match w_mtu w with Some m => negb (N.eqb m (peer_mtu P p)) | None => false end) eqn:Emtu.
  { left. apply (kp_send_error T q _ _ _ _ _ _ H). reflexivity. }
  destruct (w_sender_hk w) as [hk|] eqn:Ehk; [|apply ret_ok in H; destruct H as [_ ->]; left; apply nd_refl].
  bind H as l m H1. apply gets_ok in H1. destruct H1 as [-> ->].
  bind H as now m H1. apply gets_ok in H1. destruct H1 as [-> ->].
  destruct (may_connect P (n_peers n) p) eqn:Emc; cbn [negb] in H; [|apply ret_ok in H; destruct H as [_ ->]; left; apply nd_refl].
  destruct (timed_out (n_now n) (p_eh_to p)) eqn:Eeh; cbn [negb] in H; [|apply ret_ok in H; destruct H as [_ ->]; left; apply nd_refl].
  destruct (match w_recipient w with Some rk => negb (bytes_eqb (c_own P) rk) | None => false end) eqn:Erec; [apply ret_ok in H; destruct H as [_ ->]; left; apply nd_refl|].
  bind H as go m H1.
  assert (A : (kp T q n m \/ (q = T /\ go = false /\ refused P T ra n m)) /\ (go = true -> inv P m /\ dtrk q n m /\ kc n m) /\ n_now m = n_now n).
  { destruct (is_dynamic p) eqn:Ed.
    - pose proof (dynamic_down T _ _ _ _ _ _ _ _ _ _ p H1 Hf Ed) as K.
      apply (handle_dynamic_to P ev) in H1; [|exact I | exact Hev | intros y Hy; congruence]. destruct H1 as [T1 X]. split; [exact K|]. split.
      + intros Eg. destruct (X Eg) as (D & _ & C). split; [apply T1 | split; assumption].
      + exact (steps_now _ _ _ _ _ (to_steps _ _ _ _ _ T1)).
    - apply ret_ok in H1. destruct H1 as [_ ->]. split; [left; apply kp_refl|]. split; [|reflexivity]. intros _. split; [exact I|]. split; [apply dtrk_same; reflexivity | apply kc_refl]. }
  destruct A as (K & A & En). clear H1. destruct go; cbn [negb] in H.
  2:{ apply ret_ok in H. destruct H as [_ ->]. destruct K as [[K _] | (-> & _ & K)]; [left; exact K|]. right. right. split; [reflexivity|]. split; [exact K|]. split; [exact En|].
      exists p. split; [exact Hf | unfold timed_out in Eeh; lia]. }
  destruct K as [K | (_ & E & _)]; [|discriminate]. destruct (A eq_refl) as (Im & D & C). clear A.
  destruct (N.eqb (w_type w) 1).
  - left. apply (nd_trans _ _ _ _ (proj1 K)). bind H as p1 m1 H2. apply rd_ok in H2. destruct H2 as [Hf1 ->].
    destruct (_ && _)%bool; [apply ret_ok in H; destruct H as [_ ->]; apply nd_refl|]. bind H as u m2 H2.
    apply (kp_wr T) in H2; [|intros y; reflexivity]. apply (kp_respond_handshake T) in H. eapply nd_trans; [apply H2 | apply H].
  - assert (Er : match w_recipient w with Some rk => rk = c_own P | None => True end).
    { destruct (w_recipient w) as [rk|]; [|trivial]. destruct (bytes_eqb (c_own P) rk) eqn:E; [|discriminate]. apply bytes_eqb_true in E. congruence. }
    destruct (reply_down T _ _ _ _ _ _ _ _ _ _ H Im Ehk Er) as [X | [(p1 & Hp1 & X) Y]]; [left; eapply nd_trans; [apply K | exact X]|]. right. left. split.
    + destruct (D p1 Hp1) as (p0 & Hp0 & E). rewrite Hf in Hp0. injection Hp0 as <-. unfold kd in E. injection E as E1 _ _ E4 _ _ _. exists p. split; [exact Hf|].
      destruct C as (C1 & C2 & _ & C4). destruct X as (i & hk0 & salt & sigma & k & mac & tlv0 & X1 & X2 & X3 & X4 & X5 & X6 & X7 & X8 & X9).
      exists i, hk0, salt, sigma, k, mac, tlv0. rewrite <- E1, <- E4, <- C1, <- C2, <- C4. repeat (split; [assumption|]). assumption.
    + destruct (N.eq_dec q T) as [Hq | Hq]; [left; exact Hq|]. destruct Y as [Y | (p2 & Y1 & Y2)]; [left; exact Y|]. right. exists p2.
      rewrite <- (proj1 (proj2 K) Hq). split; assumption.
Qed.

Lemma add_dynamic_down : forall T P sk key r n n' p, add_dynamic P sk key n = Ok (r, n') -> ids_ok n -> find_id (n_peers n) T = Some p ->
  nd T n n' /\ find_id (n_peers n') T = Some p /\
  forall id, r = Some id -> id <> T /\ c_verify P <> None /\ ~ In key (map p_key (n_peers n)).
Proof.
  intros T P sk key r n n' p H I Hf. unfold add_dynamic in H.
  assert (Hnone : ret None n = Ok (r, n') -> nd T n n' /\ find_id (n_peers n') T = Some p /\ forall id, r = Some id -> id <> T /\ c_verify P <> None /\ ~ In key (map p_key (n_peers n))).
  { intros X. apply ret_ok in X. destruct X as [<- ->]. split; [apply nd_refl|]. split; [exact Hf | discriminate]. }
  destruct (allow_verify P) eqn:Eav; cbn [negb] in H; [|exact (Hnone H)]. destruct sk as [k|o i]; [|exact (Hnone H)].
  destruct (bytes_eqb (c_own P) key); [exact (Hnone H)|]. bind H as l m H1. apply gets_ok in H1. destruct H1 as [-> ->].
  destruct (find_peer_key (n_peers n) key) as [o|] eqn:Ek; [exact (Hnone H)|]. destruct (negb (c_key_ok P key)); [exact (Hnone H)|].
  destruct (negb (may_connect _ _ _)); [exact (Hnone H)|]. clear Hnone.
  bind H as a m H1. unfold peer_add in H1. bind H1 as l2 m2 H2. apply gets_ok in H2. destruct H2 as [-> ->].
  cbn [pc_key dyn_conf] in H1. rewrite Ek in H1. bind H1 as id m2 H2. apply ret_ok in H1. destruct H1 as [<- ->].
  unfold insert_peer in H2. bind H2 as id2 m3 H3. apply gets_ok in H3. destruct H3 as [-> ->].
  bind H2 as u m3 H3. apply ret_ok in H2. destruct H2 as [<- ->]. apply modn_ok in H3.
  bind H as u4 m4 H4. bind H as u5 m5 H5. apply ret_ok in H. destruct H as [<- ->].
  assert (Hne : n_next_id n <> T) by (pose proof (found_below _ _ _ I Hf); lia).
  assert (F3 : find_id (n_peers m3) T = Some p).
  { rewrite H3. cbn [n_peers set_n_next_id set_n_peers]. revert Hf. generalize (n_peers n) as l. induction l as [|y l IH]; intros Hf; [discriminate|].
    unfold find_id in *. cbn [app find] in *. destruct (N.eqb (p_id y) T); [exact Hf | exact (IH Hf)]. }
  apply (kp_wr T) in H4; [|intros y; reflexivity]. apply (kp_peer_reset T) in H5; [|left; exact Hne].
  split; [|split].
  - apply nd_trans with m3; [rewrite H3; split; [reflexivity|]; exists []; split; [reflexivity | intros t []]|]. eapply nd_trans; [apply H4 | apply H5].
  - rewrite (proj1 (proj2 H5) Hne), (proj1 (proj2 H4) Hne). exact F3.
  - intros id E. injection E as <-. split; [exact Hne|]. split; [unfold allow_verify in Eav; destruct (c_verify P); discriminate | apply find_peer_key_none; exact Ek].
Qed.

Definition hs_reason (P : params) (n n' : node) (T : N) (p : peer) (ra : addr) (w : hsview) : Prop :=
  (exists key initiator hk salt sigma k mac tlv0, w_sender w = Some key /\
    w_recipient w = Some (c_own P) /\ w_sender_hk w = Some hk /\ w_recipient_hk w = Some (c_eph P (k_serial k)) /\
    w_mac w = Some (mac, tlv0) /\ c_mac P salt tlv0 = mac /\ c_shared P initiator (k_serial k) key hk = Some (sigma, salt) /\
    (k = n_cur n' \/ k = n_prev n') /\ n_now n' < k_valid_till k /\
    (forall q, In q (n_peers n) -> p_key q = key -> (p_serial q < k_serial k)%N) /\
    allowed_key P n key /\ (key = p_key p \/ (p_addr p = Some ra /\ owns_address p ra = false))) \/
  (refused P T ra n n' /\ p_eh_to p <= n_now n /\ n_now n' = n_now n /\ w_sender w = Some (p_key p)).

Lemma key_inj : forall n p q, uniq_key n -> In p (n_peers n) -> In q (n_peers n) -> p_key p = p_key q -> p = q.
Proof.
  intros n p q H. unfold uniq_key in H. induction (n_peers n) as [|x l IH]; intros Hp Hq E; [destruct Hp|]. cbn [map] in H. inversion H as [|? ? A B]; subst.
  destruct Hp as [->|Hp], Hq as [->|Hq]; [reflexivity | exfalso; apply A; rewrite E; apply in_map; exact Hq | exfalso; apply A; rewrite <- E; apply in_map; exact Hp | exact (IH B Hp Hq E)].
Qed.

Lemma proto_down : forall ev T P sk la ra pid w x n n' p, proto_handshake P sk la ra pid w n = Ok (x, n') -> inv P n -> oact pid n ->
  hs_ctx P ev sk la ra w -> find_id (n_peers n) T = Some p -> nd T n n' \/ hs_reason P n n' T p ra w.
Proof.
  intros ev T P sk la ra pid w x n n' p H I Ha Hctx Hf. unfold proto_handshake in H. bind H as u m H1.
  pose proof (kp_maintenance T 0%N _ _ _ H1) as K1. assert (Ep : n_peers m = n_peers n /\ n_out m = n_out n /\ n_now m = n_now n).
  { unfold maintenance in H1. apply modn_ok in H1. subst m. destruct (timed_out _ _); repeat split. }
  destruct Ep as (Ep & Eo & En). assert (Hf1 : find_id (n_peers m) T = Some p) by (rewrite Ep; exact Hf).
  apply (maintenance_to P ev) in H1; [|exact I]. destruct H1 as [T1 Hfr].
  destruct (w_sender w) as [key|] eqn:Es; [|apply ret_ok in H; destruct H as [_ ->]; left; apply K1].
  assert (Ha1 : oact pid m) by (destruct pid as [pid|]; [intros y Hy; rewrite Ep in Hy; exact (Ha y Hy) | exact Logic.I]).
  bind H as mr m1 H2. apply (match_sender_key_spec P) in H2; [|apply T1 | exact Ha1]. destruct H2 as [-> Hmr].
  assert (Hev : exists d, ev = EvRecv sk la ra d) by (destruct Hctx as (d & pkt & ctl & h & Eev & _); exists d; exact Eev).
  destruct mr as [q| |].
  - destruct (Hmr q eq_refl) as [He Hk].
    assert (S : to P ev ff m n').
    { apply tov_ff; [|apply T1]. eapply handshake_from_to; [exact H | apply T1 | exact He | exact Hfr | exact Hctx|]. intros y Hy. rewrite (Hk y Hy). exact Es. }
    destruct (fresh_steps _ _ _ _ _ (to_steps _ _ _ _ _ S) Hfr) as (_ & Ec & Epr). pose proof (steps_now _ _ _ _ _ (to_steps _ _ _ _ _ S)) as En2.
    destruct (from_down ev T _ _ _ _ _ _ _ _ _ H (proj2 T1) Hev) as [X | [[(p0 & Hp0 & X) Y] | (Eq & X & _ & (p0 & Hp0 & Eh))]].
    + left. eapply nd_trans; [apply K1 | exact X].
    + right. left. destruct X as (i & hk & salt & sigma & k & mac & tlv0 & X1 & X2 & X3 & X4 & X5 & X6 & X7 & X8 & X9).
      rewrite (Hk p0 Hp0) in X6. exists key, i, hk, salt, sigma, k, mac, tlv0. rewrite Ec, Epr, En2. split; [exact Es|]. repeat (split; [assumption|]).
      pose proof Hp0 as Hp0'. rewrite Ep in Hp0'. apply find_id_in in Hp0'. destruct Hp0' as [Hin0 Hid0]. split; [|split].
      * intros y Hy Ey. rewrite (key_inj n y p0 (wf_key _ (i_wf _ _ (i_0 _ _ I))) Hy Hin0); [exact X9|]. rewrite Ey, (Hk p0 Hp0). reflexivity.
      * left. exists p0. split; [exact Hin0|]. split; [exact (Hk p0 Hp0)|]. specialize (He p0 Hp0). unfold is_enabled in He. destruct (p_conf p0); try discriminate; [left | right]; reflexivity.
      * destruct Y as [Y | (p1 & Y1 & Y2)]; [left | right].
        -- subst q. rewrite Hf1 in Hp0. injection Hp0 as <-. symmetry. exact (Hk p Hf1).
        -- rewrite Hf1 in Y1. injection Y1 as <-. exact Y2.
    + subst q. rewrite Hf1 in Hp0. injection Hp0 as <-. right. right. split; [|split; [rewrite <- En; exact Eh | split; [rewrite En2; exact En | rewrite (Hk p Hf1); exact Es]]].
      destruct X as (p1 & X1 & X2 & X3 & X4). exists p1. rewrite Ep in X1. rewrite En in X3. split; [exact X1|]. split; [exact X2|]. split; [exact X3|].
      unfold newly in *. rewrite Eo, ?En in X4. exact X4.
  - apply ret_ok in H. destruct H as [_ ->]. left. apply K1.
  - bind H as id m2 H3. destruct (add_dynamic_down T _ _ _ _ _ _ p H3 (inv_ids _ _ (proj2 T1)) Hf1) as (K2 & Hf2 & Hid).
    apply (add_dynamic_to P ev) in H3; [|apply T1]. destruct H3 as [T3 X3].
    destruct id as [id|]; [|apply ret_ok in H; destruct H as [_ ->]; left; eapply nd_trans; [apply K1 | exact K2]].
    destruct (X3 id eq_refl) as [He Hk]. destruct (Hid id eq_refl) as (Hne & Hv & Hnk). pose proof (proj1 (fresh_steps _ _ _ _ _ (to_steps _ _ _ _ _ T3) Hfr)) as Hfr2.
    assert (S : to P ev ff m2 n').
    { apply tov_ff; [|apply T3]. eapply handshake_from_to; [exact H | apply T3 | exact He | exact Hfr2 | exact Hctx|]. intros y Hy. rewrite (Hk y Hy). exact Es. }
    destruct (fresh_steps _ _ _ _ _ (to_steps _ _ _ _ _ S) Hfr2) as (_ & Ec & Epr). pose proof (steps_now _ _ _ _ _ (to_steps _ _ _ _ _ S)) as En2.
    destruct (from_down ev T _ _ _ _ _ _ _ _ _ H (proj2 T3) Hev) as [X | [[(p0 & Hp0 & X) Y] | (Eq & _)]]; [| | congruence].
    + left. eapply nd_trans; [apply K1|]. eapply nd_trans; [exact K2 | exact X].
    + right. left. destruct X as (i & hk & salt & sigma & k & mac & tlv0 & X1 & X2 & X5 & X4 & X6 & X7 & X8 & X9 & X10).
      rewrite (Hk p0 Hp0) in X7. exists key, i, hk, salt, sigma, k, mac, tlv0. rewrite Ec, Epr, En2. split; [exact Es|]. repeat (split; [assumption|]).
      rewrite Ep in Hnk. split; [|split].
      * intros y Hy Ey. exfalso. apply Hnk. rewrite <- Ey. apply in_map. exact Hy.
      * right. split; [exact Hv|]. intros y Hy Ey. apply Hnk. rewrite <- Ey. apply in_map. exact Hy.
      * destruct Y as [Y | (p1 & Y1 & Y2)]; [congruence|]. right. rewrite Hf2 in Y1. injection Y1 as <-. exact Y2.
Qed.

Lemma receive_down : forall T P sk la ra d x n n' p, receive P sk la ra d n = Ok (x, n') -> inv P n -> find_id (n_peers n) T = Some p ->
  nd T n n' \/ over T n \/
  exists w, hs_ctx P (EvRecv sk la ra d) sk la ra w /\ hs_reason P n n' T p ra w.
Proof.
  intros T P sk la ra d x n n' p H I Hf. pose proof (inv_ids _ _ I) as Ii. unfold receive in H. bind H as l m H1. apply gets_ok in H1. destruct H1 as [-> ->].
  bind H as src m H1.
  assert (A : m = n /\ forall pid, src = Some pid -> oact pid n).
  { destruct sk as [k|o i].
    - apply ret_ok in H1. destruct H1 as [<- ->]. split; [reflexivity|]. intros pid E. injection E as <-. unfold lookup_addr.
      destruct (find (fun p => addr_eqb (p_addr p) (Some ra)) (n_peers n)) as [y|] eqn:Ef; [|exact Logic.I].
      apply find_some in Ef. destruct Ef as [Hin Hadr]. apply addr_eqb_true in Hadr. cbn [oact].
      pose proof (in_find n y Ii Hin) as Hfy. eapply used_act; [exact I | exact Hfy | left; congruence].
    - bind H1 as y m1 H2. apply rd_ok in H2. destruct H2 as [Hfy ->]. apply ret_ok in H1. destruct H1 as [<- ->]. split; [reflexivity|].
      intros pid E. destruct (addr_eqb (p_addr y) (Some ra)) eqn:Ea; [|discriminate]. injection E as <-. apply addr_eqb_true in Ea.
      cbn [oact]. eapply used_act; [exact I | exact Hfy | left; congruence]. }
  clear H1. destruct A as [-> A]. destruct src as [pid|]; [|apply ret_ok in H; destruct H as [_ ->]; left; apply nd_refl]. specialize (A pid eq_refl).
  cbv zeta in H. bind H as can m H2. assert (E : m = n).
  { destruct pid as [pid|]; [|apply ret_ok in H2; exact (proj2 H2)]. bind H2 as y m1 H3. apply rd_ok in H3. destruct H3 as [_ ->]. apply ret_ok in H2. exact (proj2 H2). }
  subst m. clear H2. bind H as fl m H2. apply gets_ok in H2. destruct H2 as [-> ->].
  assert (Hrest : (if (match pid with None => negb (n_floating n || allow_verify P) | Some _ => false end)%bool then ret tt
          else match classify d with
          | PHandshake pkt ctl =>
              o <- lift (handshake_handle (c_hs P) pkt ctl) ;;
              match o with
              | HIgnore => ret tt
              | HError _ _ _ => send_error sk ra pid
              | HProtocol h => w <- lift (view pkt h) ;; proto_handshake P sk la ra pid w
              end
          | PData _ _ =>
              backoff <- flip ;;
              when (negb backoff) (handshake_init (Some sk) (Some ra) None)
          | PInvalid => ret tt
          end) n = Ok (x, n') -> nd T n n' \/ over T n \/ exists w, hs_ctx P (EvRecv sk la ra d) sk la ra w /\ hs_reason P n n' T p ra w).
  { clear H. intros H. destruct (match pid with None => _ | Some _ => false end)%bool; [apply ret_ok in H; destruct H as [_ ->]; left; apply nd_refl|].
    destruct (classify d) as [pkt ctl|pkt y|] eqn:Ecl.
    - bind H as o m H1. apply lift_ok in H1. destruct H1 as [Eo ->]. destruct o as [|? ? ?|h].
      + apply ret_ok in H; destruct H as [_ ->]; left; apply nd_refl.
      + left. apply (kp_send_error T (match pid with Some r => r | None => 0%N end) _ _ _ _ _ _ H). destruct pid; trivial.
      + bind H as w m H1. apply lift_ok in H1. destruct H1 as [Ew ->].
        assert (Hctx : hs_ctx P (EvRecv sk la ra d) sk la ra w) by (exists d, pkt, ctl, h; repeat split; assumption).
        destruct (proto_down _ T _ _ _ _ _ _ _ _ _ p H I A Hctx Hf) as [X | X]; [left; exact X|]. right. right. exists w. split; assumption.
    - left. bind H as b m H1. apply (kp_flip T 0%N) in H1. apply (nd_trans _ _ _ _ (proj1 H1)). unfold when in H. destruct (negb b).
      + apply (kp_handshake_init T 0%N _ _ _ _ _ _ H). exact Logic.I.
      + apply ret_ok in H; destruct H as [_ ->]. apply nd_refl.
    - apply ret_ok in H; destruct H as [_ ->]; left; apply nd_refl. }
  destruct pid as [pid|]; [|destruct (classify d); apply Hrest; exact H].
  destruct (classify d) as [pkt ctl|pkt y|]; try (apply Hrest; exact H).
  destruct can; [|apply Hrest; exact H]. destruct (handle_recv_down T _ _ _ _ _ _ H Ii) as [X | X]; [left; exact X | right; left; exact X].
Qed.

(** ** Timers *)
Lemma send_handshake_down : forall T P q ri b n n', send_handshake P q ri n = Ok (b, n') -> ids_ok n -> q <> T -> nd T n n'.
Proof.
  intros T P q ri b n n' H I Hq. unfold send_handshake in H. bind H as p m H1. apply rd_ok in H1. destruct H1 as [Hf ->]. bind H as go m H1.
  apply nd_trans with m.
  - clear H. destruct (negb (is_established p)); [|apply ret_ok in H1; destruct H1 as [_ ->]; apply nd_refl].
    destruct ri as [i|]; [|discriminate]. bind H1 as r m1 H2. apply rd_remote_ok in H2. destruct H2 as [-> _].
    destruct (r_addrs r) as [|a0 l0] eqn:El; [apply ret_ok in H1; destruct H1 as [_ ->]; apply nd_refl|]. rewrite <- El in H1.
    destruct (nth_error (r_addrs r) (r_cur r)) as [a|]; [|discriminate]. bind H1 as c m1 H2. bind H1 as u m2 H3. apply ret_ok in H1. destruct H1 as [_ ->].
    apply (claim_down T) in H2; [|exact I | exact Hq]. destruct H2 as [[K _] | [E _]]; [|discriminate]. apply (nd_trans _ _ _ _ K).
    apply (kp_reset_socket T _ _ _ _ H3).
  - destruct (negb go); [apply ret_ok in H; destruct H as [_ ->]; apply nd_refl|]. bind H as p1 m1 H2. apply rd_ok in H2. destruct H2 as [_ ->].
    bind H as now m1 H2. apply gets_ok in H2. destruct H2 as [-> ->]. destruct (p_sock p1) as [sk|]; [|apply ret_ok in H; destruct H as [_ ->]; apply nd_refl].
    destruct (p_addr p1) as [a|]; [|apply ret_ok in H; destruct H as [_ ->]; apply nd_refl]. destruct (_ && _)%bool; [apply ret_ok in H; destruct H as [_ ->]; apply nd_refl|].
    bind H as u m1 H2. apply (kp_wr T) in H2; [|intros y; reflexivity]. bind H as u1 m2 H3. apply ret_ok in H. destruct H as [_ ->].
    apply (kp_handshake_init T q) in H3; [|reflexivity]. eapply nd_trans; [apply H2 | apply H3].
Qed.
Lemma kp_task_handshake_next : forall T P q x n n', task_handshake_next P q n = Ok (x, n') -> kp T q n n'.
Proof.
  intros T P q x n n' H. unfold task_handshake_next in H. bind H as u m H1. apply (kp_wr T) in H1; [|intros y; kid]. apply (kp_trans _ _ _ _ _ H1). clear H1.
  minv; kchain.
Qed.
#[global] Hint Resolve kp_task_handshake_next : kp.
Lemma task_handshake_down : forall T P q x n n', task_handshake P q n = Ok (x, n') -> ids_ok n -> q <> T -> nd T n n'.
Proof.
  intros T P q x n n' H I Hq. unfold task_handshake in H. bind H as d m H1. apply (kp_default_rand T q) in H1.
  bind H as u m1 H2. apply (kp_set_next_handshake T) in H2. apply (kp_trans _ _ _ _ _ H1) in H2. clear H1.
  bind H as p m2 H3. apply rd_ok in H3. destruct H3 as [Hf ->]. bind H as l m2 H3. apply gets_ok in H3. destruct H3 as [-> ->].
  apply (nd_trans _ _ _ _ (proj1 H2)). pose proof (proj2 (proj2 H2) I) as I1. clear H2.
  destruct (negb _); [apply (kp_wr T) in H; [apply H | intros y; reflexivity]|].
  assert (G : forall ri, (send_handshake P q ri ;;
        p <- rd q ;;
        if is_established p then ret tt
        else
          wr q (set_p_state Handshaking) ;;
          match ri with
          | None => undefined
          | Some i =>
              r <- rd_remote q i ;;
              wr q (set_remote i (set_r_cur (S (r_cur r)))) ;;
              if Nat.ltb (S (r_cur r)) (length (r_addrs r)) then ret tt
              else
                wr q (fun p => set_p_next_remote (match p_next_remote p with Some i => Some (S i) | None => Some 0%nat end) p) ;;
                task_handshake_next P q
          end) m1 = Ok (x, n') -> nd T m1 n').
  { clear H. intros ri H. bind H as b m2 H1. apply (send_handshake_down T) in H1; [|exact I1 | exact Hq]. apply (nd_trans _ _ _ _ H1). clear H1.
    assert (K : kp T q m2 n'); [|apply K]. minv; kchain. }
  destruct (p_next_remote p) as [i|]; [exact (G _ H)|]. destruct (is_established p); [exact (G _ H)|]. apply (kp_task_handshake_next T _ _ _ _ _ H).
Qed.
Lemma handle_task_down : forall T P q x n n', handle_task P q n = Ok (x, n') -> ids_ok n -> q <> T -> nd T n n'.
Proof.
  intros T P q x n n' H I Hq. unfold handle_task in H. bind H as u m H1. apply (kp_wr T) in H1; [|intros y; reflexivity].
  bind H as p m1 H2. apply rd_ok in H2. destruct H2 as [Hf ->]. bind H as now m1 H2. apply gets_ok in H2. destruct H2 as [-> ->].
  apply (nd_trans _ _ _ _ (proj1 H1)). pose proof (proj2 (proj2 H1) I) as I1. clear H1. destruct (otimed_out (n_now m) (p_reset_to p)).
  - destruct (is_dynamic p); [apply (kp_peer_delete T) in H; [apply H | exact Hq] | apply (kp_peer_reset T) in H; [apply H | left; exact Hq]].
  - bind H as u1 m1 H2. assert (K : kp T q m m1).
    { unfold when in H2. destruct (otimed_out _ _); [|apply ret_ok in H2; destruct H2 as [_ ->]; apply kp_refl]. bind H2 as u2 m2 H3.
      destruct (protocol_send_down T _ _ _ _ _ H3) as [K | [E _]]; [|congruence]. eapply kp_trans; [exact K | eauto with kp]. }
    apply (nd_trans _ _ _ _ (proj1 K)). pose proof (proj2 (proj2 K) I1) as I2. clear K H2. bind H as p1 m2 H2. apply rd_ok in H2. destruct H2 as [_ ->].
    bind H as u2 m2 H2. apply nd_trans with m2; [|apply (kp_schedule_peer_task T _ _ _ _ H)].
    unfold when in H2. destruct (otimed_out _ _); [|apply ret_ok in H2; destruct H2 as [_ ->]; apply nd_refl]. eapply task_handshake_down; eassumption.
Qed.

(** ** Events *)
Lemma sess_over : forall now p, sess_valid now (p_sess p) = false -> session_over now p.
Proof.
  intros now p H. unfold session_over. unfold sess_valid in H. destruct (p_sess p) as [s|]; [|trivial]. unfold m_valid in H. destruct (ss_state s) as [c|c]; [|exact H].
  unfold common_is_valid, timed_out in H. destruct (_ && _)%bool eqn:E in H; [right; lia | left; lia].
Qed.
Lemma owns_configured : forall p a, owns_address p a = false -> ~ configured_at p a.
Proof.
  intros p a H (A & r & Hin & B & C). unfold owns_address, is_floating in H. rewrite A in H. destruct (p_remotes p) as [|r0 l] eqn:E; [destruct Hin|].
  cbn [orb] in H. rewrite <- Bool.not_true_iff_false in H. apply H. apply existsb_exists. exists r. split; [exact Hin|]. rewrite B, C. apply N.eqb_refl.
Qed.
Lemma nd_newly : forall T n n' t, nd T n n' -> ~ newly n n' t (ODown T).
Proof. intros T n n' t [_ (l & E & H)] (l' & E' & Hin). rewrite E' in E. apply app_inv_tail in E. subst l'. exact (H t Hin). Qed.

Lemma ends_for_reason : forall P n dt ev n' t pid, reachable P n -> handles P n dt ev n' -> up (n_out n) pid = true -> newly n n' t (ODown pid) ->
  exists p, In p (n_peers n) /\ p_id p = pid /\ end_reason P n ev n' p.
Proof.
  intros P n dt ev n' t pid R H Hup Hd. pose proof (reachable_inv P n R) as I. pose proof (handles_steps P n dt ev n' H I) as [I1 [[S _] _]].
  pose proof (steps_now _ _ _ _ _ S) as En. apply (proj2 (reachable_uinv P n R)) in Hup. destruct Hup as (p & Hf & He).
  exists p. destruct (find_id_in _ _ _ Hf) as [Hin Hid]. split; [exact Hin|]. split; [exact Hid|].
  assert (Hov : over pid (tick dt n) -> session_over (n_now n') p).
  { intros (p1 & A & B). change (find_id (n_peers n) pid = Some p1) in A. rewrite Hf in A. injection A as <-. rewrite En. apply sess_over. exact B. }
  assert (Hnd : nd pid (tick dt n) n' -> False) by (intros X; exact (nd_newly _ _ _ t X Hd)).
  pose proof (inv_ids _ _ I1) as Ii.
  pose proof H as H0. unfold handles, step in H. bind H as u m H1. apply modn_ok in H1. cbn [fst snd] in *. change (m = tick dt n) in H1. subst m.
  assert (Hft : find_id (n_peers (tick dt n)) pid = Some p) by exact Hf.
  destruct ev as [sk la ra d|owner src dst|q| |k addrs|k ok|defs|]; cbn [handle] in H; cbn [end_reason].
  - (* a packet *)
    bind H as l m H1. apply gets_ok in H1. destruct H1 as [-> ->].
    assert (H2 : receive P sk la ra d (tick dt n) = Ok (tt, n') \/ n' = tick dt n).
    { destruct sk as [k|o i]; [left; exact H|]. unfold when in H. destruct (sock_alive _ _); [left; exact H | right; apply ret_ok in H; exact (proj2 H)]. }
    destruct H2 as [H2 | ->]; [|exfalso; apply Hnd; apply nd_refl].
    destruct (receive_down pid _ _ _ _ _ _ _ _ p H2 I1 Hft) as [X | [X | (w & (d0 & pkt & ctl & h & Eev & Ecl & Ehs & Ew) & X)]]; [contradiction | left; exact (Hov X)|].
    injection Eev as <-. right. destruct (handled_parsed _ _ _ _ Ehs) as (h0 & Y1 & Y2 & Y3). destruct (view_values _ _ _ Ew) as (V1 & V2 & V3 & V4 & V5).
    destruct X as [(key & i & hk & salt & sigma & k & mac & tlv0 & X1 & X2 & X3 & X4 & X5 & X6 & X7 & X8 & X9 & X10 & X11 & X12) | (X1 & X2 & X3 & X4)]; [left | right].
    + exists key. split; [|split; [exact X11 | destruct X12 as [X12 | [X12 X13]]; [left; exact X12 | right; split; [exact X12 | apply owns_configured; exact X13]]]].
      exists i, hk, salt, sigma, k. split; [|split; [exact X7 | split; [exact X8 | split; [exact X9|]]]].
      * exists pkt, h0, tlv0. split; [exact (classify_handshake _ _ _ Ecl)|]. split; [exact Y1|]. destruct (V5 _ _ X5) as [V6 V7].
        unfold value, mac_input in *. rewrite <- Y2, <- Y3. split; [exact (V1 _ X1)|]. split; [exact (V3 _ X3)|]. split; [exact (V2 _ X2)|].
        split; [exact (V4 _ X4)|]. split; [exact V7|]. rewrite X6. exact V6.
      * intros q t0 o key' serial Hq Ek Ho Hs. pose proof (found_in n q (inv_ids _ _ I) Hq) as Hfq.
        pose proof (ki_id _ (reachable_kinv P n R) _ _ Hfq _ _ _ _ _ Ho Hs eq_refl). specialize (X10 q Hq Ek). lia.
    + destruct X1 as (p1 & A & B & C & D). rewrite Hft in A. injection A as <-. rewrite En, Hid. split; [unfold is_dynamic in B; destruct (p_conf p); try discriminate; reflexivity|].
      split; [|split; [exact C | split; [exact X2 | exact D]]].
      exists pkt, h0. split; [exact (classify_handshake _ _ _ Ecl)|]. split; [exact Y1|]. unfold value in *. rewrite <- Y2. exact (V1 _ X4).
  - (* a frame *)
    bind H as l m H1. apply gets_ok in H1. destruct H1 as [-> ->].
    assert (G : forall dest, send_data P None dest src dst (tick dt n) = Ok (tt, n') -> session_over (n_now n') p).
    { intros dest X. destruct (send_data_down pid _ _ _ _ _ _ _ _ X Ii) as [Y | Y]; [contradiction | exact (Hov Y)]. }
    destruct owner as [o|]; [|exact (G _ H)]. destruct (find_id (n_peers (tick dt n)) o) as [po|]; [|apply ret_ok in H; destruct H as [_ ->]; exfalso; apply Hnd; apply nd_refl].
    unfold when in H. destruct (p_iface po); [exact (G _ H) | apply ret_ok in H; destruct H as [_ ->]; exfalso; apply Hnd; apply nd_refl].
  - (* a timer *)
    rewrite Hid. destruct (N.eq_dec q pid) as [->|Hq].
    + split; [reflexivity|]. destruct (not_dropped_early P n dt n' pid t R H0 Hd) as [X | (p1 & A & B)]; [right; exact X|]. left. rewrite Hf in A. injection A as <-. apply sess_over. exact B.
    + exfalso. apply Hnd. pose proof (task_event P n dt q n' H0) as X. destruct (find_id (n_peers n) q) as [pq|]; [|rewrite X; apply nd_refl].
      destruct (otimed_out _ _); [|rewrite X; apply nd_refl]. eapply handle_task_down; eassumption.
  - apply Hnd. unfold eth_cleanup in H. apply modn_ok in H. subst n'. split; [reflexivity|]. exists []. split; [reflexivity | intros t0 []].
  - apply Hnd. bind H as l m H1. apply gets_ok in H1. destruct H1 as [-> ->]. destruct (nth_error _ k) as [[q i]|]; [|apply ret_ok in H; destruct H as [_ ->]; apply nd_refl].
    bind H as u1 m H1. assert (K : kp pid q (tick dt n) m) by km. apply (nd_trans _ _ _ _ (proj1 K)). clear K H1. unfold resolve_return in H.
    bind H as l m1 H1. apply gets_ok in H1. destruct H1 as [-> ->]. destruct (find_id (n_peers m) q) as [y|]; [|apply ret_ok in H; destruct H as [_ ->]; apply nd_refl].
    destruct (negb _); [apply ret_ok in H; destruct H as [_ ->]; apply nd_refl|]. destruct (is_dynamic y); [discriminate|].
    assert (K : kp pid q m n'); [|apply K]. minv; kchain.
  - apply Hnd. bind H as l m H1. apply gets_ok in H1. destruct H1 as [-> ->]. destruct (nth_error _ k) as [j|]; [|apply ret_ok in H; destruct H as [_ ->]; apply nd_refl].
    bind H as u1 m H1. assert (K : kp pid (v_peer j) (tick dt n) m) by km. apply (nd_trans _ _ _ _ (proj1 K)). clear K H1. unfold verify_return in H.
    bind H as l m1 H1. apply gets_ok in H1. destruct H1 as [-> ->]. destruct (find_id (n_peers m) (v_peer j)) as [y|] eqn:Ey; [|apply ret_ok in H; destruct H as [_ ->]; apply nd_refl].
    destruct (negb _); [discriminate|]. assert (K : kp pid (p_id y) m n'); [|apply K]. minv; kchain.
  - exact Logic.I.
  - exact Logic.I.
Qed.

Lemma stays_up : forall P n dt ev n' pid p, reachable P n -> handles P n dt ev n' -> up (n_out n) pid = true -> In p (n_peers n) -> p_id p = pid ->
  ~ end_reason P n ev n' p -> up (n_out n') pid = true.
Proof.
  intros P n dt ev n' pid p R H Hup Hin Hid Hr. pose proof (reachable_inv P n R) as I. pose proof (handles_steps P n dt ev n' H I) as [_ S].
  destruct (to_out _ _ _ _ _ S) as (l & E). change (n_out n' = l ++ n_out n) in E. rewrite E. apply up_kept; [exact Hup|]. intros t Hl.
  destruct (ends_for_reason P n dt ev n' t pid R H Hup) as (p1 & A & B & C); [exists l; split; assumption|]. apply Hr.
  rewrite <- (ids_inj n p1 p (inv_ids _ _ I) A Hin); [exact C | congruence].
Qed.
Lemma forged_harmless : forall P n dt sk la ra d n' pid p, reachable P n -> handles P n dt (EvRecv sk la ra d) n' -> up (n_out n) pid = true ->
  In p (n_peers n) -> p_id p = pid -> p_conf p <> CDynamic -> ~ session_over (n_now n') p ->
  (forall key, allowed_key P n key -> ~ fresh_proof P n n' d key) -> up (n_out n') pid = true.
Proof.
  intros P n dt sk la ra d n' pid p R H Hup Hin Hid Hc Hs Hf. eapply stays_up; [exact R | exact H | exact Hup | exact Hin | exact Hid|].
  intros [X | [(key & X & Y & _) | (X & _)]]; [exact (Hs X) | exact (Hf key Y X) | exact (Hc X)].
Qed.
