(** Weakest preconditions: payload and handshakes *)
From Verif Require Import Base BufferModel NonceModel MethodModel HandshakeModel NodeModel NodeSteps NodeWf NodeSafe NodeSafe2.
From Verif Require MethodProofs HandshakeProofs.
From Coq Require Import Lia ZifyBool ZifyNat ZifyN Sorted.
Local Open Scope Z_scope.

Section Safe.
Variable P : params.
Notation ex := (ex P).
Notation exp := (exp P).

Lemma wp_each : forall A (f : A -> M unit) (J : node -> Prop) l n (Q : unit -> node -> Prop), J n ->
  (forall x m, In x l -> J m -> wp (f x) m (fun _ m' => J m')) -> (forall m, J m -> Q tt m) -> wp (each f l) n Q.
Proof.
  intros A f J l. induction l as [|x l IH]; intros n Q Hn Hf HQ; cbn [each].
  - apply wp_ret. exact (HQ n Hn).
  - apply wp_bnd. eapply wp_conseq; [apply Hf; [left; reflexivity | exact Hn]|]. intros u m _ Hm. apply IH; [exact Hm | | exact HQ].
    intros y m' Hy. apply Hf. right. exact Hy.
Qed.

Lemma est_of_core : forall p p', core p' = core p -> is_established p' = is_established p.
Proof. intros p p' E. apply core_inv in E. destruct E as (_ & _ & E & _). unfold is_established. rewrite E. reflexivity. Qed.

(** ** Sending payload *)
Lemma wp_check_session : forall pid n p (Q : bool -> node -> Prop), find_id (n_peers n) pid = Some p -> ex n ->
  Q true n -> (forall n' p', find_id (n_peers n') pid = Some p' -> fresh_p p p' -> ch (at_ pid) n n' -> ex n' -> Q false n') -> wp (check_session P pid) n Q.
Proof.
  intros pid n p Q Hf X H1 H2. apply wp_bnd. eapply wp_rd; [exact Hf|]. apply wp_bnd. apply wp_gets.
  destruct (sess_valid (n_now n) (p_sess p)); [exact H1|]. apply wp_bnd. eapply wp_peer_reset; [exact Hf | exact X|].
  intros n1 p1 Hf1 R1 C1 X1. apply wp_ret. eapply H2; eassumption.
Qed.

Lemma wp_protocol_send : forall pid n p (Q : unit -> node -> Prop), find_id (n_peers n) pid = Some p -> ex n ->
  (forall n' p', find_id (n_peers n') pid = Some p' -> ch (at_ pid) n n' -> ex n' ->
     (fresh_p p p' \/ core p' = core p) -> (is_established p = false -> p' = p) -> Q tt n') -> wp (protocol_send P pid) n Q.
Proof.
  intros pid n p Q Hf X H. pose proof (x_peers _ _ X _ _ Hf) as Xp. apply wp_bnd. eapply wp_rd; [exact Hf|].
  destruct (is_established p) eqn:Ee; cbn [negb].
  2:{ apply wp_ret. eapply H; [exact Hf | apply ch_refl | exact X | right; reflexivity | reflexivity]. }
  apply is_est_true in Ee. destruct (e_est _ _ Xp Ee) as (Ha & Hs & Hk).
  apply wp_bnd. eapply wp_check_session; [exact Hf | exact X | |].
  2:{ intros n1 p1 Hf1 R1 C1 X1. cbn [negb]. apply wp_ret. eapply H; [exact Hf1 | exact C1 | exact X1 | left; exact R1 | discriminate]. }
  cbn [negb]. apply wp_bnd. eapply wp_check_refresh; [exact Hf | exact Hs|]. intros n1 p1 Hf1 Hs1 L1.
  assert (X1 : ex n1) by (eapply lk_ex; eassumption).
  destruct (lk_find _ _ _ _ L1 Hf) as (p1' & Y & E1). rewrite Hf1 in Y. injection Y as <-.
  apply wp_bnd. eapply wp_rd; [exact Hf1|]. apply wp_bnd. apply wp_gets. destruct (p_sess p1) as [s|] eqn:Es; [|congruence].
  pose proof (core_inv _ _ E1) as (_ & _ & _ & W4 & W5 & _).
  eapply wp_session_send; [exact Hf1 | | rewrite W4; exact Hk | rewrite W5; exact Ha | exact X1|].
  - destruct (m_initiator (ss_state s)); cbn [andb]; [|rewrite Es; discriminate]. destruct (p_old p1); cbn; [destruct (m_valid _ _)|]; rewrite ?Es; discriminate.
  - intros n2 p2 L2 Hf2 _. destruct (lk_find _ _ _ _ L2 Hf1) as (p2' & Y & E2). rewrite Hf2 in Y. injection Y as <-.
    assert (L : lk n n2) by (eapply lk_trans; eassumption).
    eapply H; [exact Hf2 | apply lk_ch; exact L | eapply lk_ex; eassumption | right; congruence | discriminate].
Qed.

(** ** Ethernet addresses *)
Lemma wp_eth_add : forall pid a n (Q : unit -> node -> Prop),
  match pid with Some pid => exists p, find_id (n_peers n) pid = Some p /\ is_established p = true | None => True end ->
  (forall n', n_peers n' = n_peers n -> lk n n' -> Q tt n') -> wp (eth_add pid a) n Q.
Proof.
  intros pid a n Q Hp H. apply wp_bnd.
  assert (Hgo : wp (modn (fun n => set_n_eth (mk_eth a pid (n_now n + ETH_ADDR_STALE_TIME) :: filter (fun e => negb (N.eqb (e_addr e) a)) (n_eth n)) n)) n Q).
  { apply wp_modn. apply H; [reflexivity|]. split; [|reflexivity]. constructor; try reflexivity; [|intros j Hj; left; exact Hj].
    intros e d He Hd. cbn in He. destruct He as [<- | He]; [|apply filter_In in He; left; exact (proj1 He)].
    cbn in Hd. right. rewrite Hd in Hp. destruct Hp as (p & Hf & _). apply has_iff. exists p. exact Hf. }
  destruct pid as [pid|].
  - destruct Hp as (p & Hf & He). apply wp_bnd. eapply wp_rd; [exact Hf|]. apply wp_ret. rewrite He. exact Hgo.
  - apply wp_ret. exact Hgo.
Qed.

Lemma ch_frame : forall S n n', ch S n n' -> frame n n'.
Proof. intros S n n' H. apply H. Qed.

Lemma wp_send_all : forall src n (Q : unit -> node -> Prop), ex n -> (forall n', ex n' -> frame n n' -> Q tt n') -> wp (send_all P src) n Q.
Proof.
  intros src n Q X H. apply wp_bnd. apply wp_gets. eapply (wp_each _ _ (fun m => ex m /\ frame n m)); [split; [exact X | apply frame_refl] | |].
  - intros pid m Hin [Xm Fm]. assert (Hp : exists p, find_id (n_peers m) pid = Some p) by (apply has_iff; rewrite (fm_ids _ _ Fm); exact Hin).
    destruct Hp as (p & Hf). apply wp_bnd. eapply wp_rd; [exact Hf|]. destruct (_ || _)%bool.
    + apply wp_ret. split; assumption.
    + eapply wp_protocol_send; [exact Hf | exact Xm|]. intros n1 p1 _ C1 X1 _ _. split; [exact X1 | eapply frame_trans; [exact Fm | apply C1]].
  - intros m [Xm Fm]. exact (H m Xm Fm).
Qed.

Lemma wp_send_data : forall src dest a b n (Q : unit -> node -> Prop), ex n ->
  match dest with Some d => exists p, find_id (n_peers n) d = Some p | None => True end ->
  (forall n', ex n' -> frame n n' -> Q tt n') -> wp (send_data P src dest a b) n Q.
Proof.
  intros src dest a b n Q X Hd H. unfold send_data. destruct dest as [d|].
  { destruct Hd as (p & Hf). eapply wp_protocol_send; [exact Hf | exact X|]. intros n1 p1 _ C1 X1 _ _. exact (H n1 X1 (ch_frame _ _ _ C1)). }
  destruct (c_tap P); [|apply wp_send_all; [exact X | exact H]].
  apply wp_bnd.
  assert (Hgo : forall n1, lk n n1 -> wp (l <- gets n_eth ;;
        match (if is_unicast b then eth_find l b else None) with
        | None => send_all P src
        | Some e =>
            match e_peer e with
            | None => ret tt
            | Some d => if match src with Some s => N.eqb s d | None => false end then ret tt else protocol_send P d
            end
        end) n1 Q).
  { intros n1 L1. assert (X1 : ex n1) by (eapply lk_ex; eassumption). pose proof (ch_frame _ _ _ L1) as F1. apply wp_bnd. apply wp_gets.
    assert (Hall : wp (send_all P src) n1 Q) by (apply wp_send_all; [exact X1 | intros n2 X2 F2; apply H; [exact X2 | eapply frame_trans; eassumption]]).
    destruct (is_unicast b); [|exact Hall]. destruct (eth_find (n_eth n1) b) as [e|] eqn:Ef; [|exact Hall].
    destruct (e_peer e) as [d|] eqn:Ed; [|apply wp_ret; exact (H n1 X1 F1)].
    destruct (match src with Some s => N.eqb s d | None => false end); [apply wp_ret; exact (H n1 X1 F1)|].
    apply find_some in Ef. assert (Hd' : exists p, find_id (n_peers n1) d = Some p) by (apply has_iff; exact (x_eth _ _ X1 e d (proj1 Ef) Ed)).
    destruct Hd' as (p & Hf). eapply wp_protocol_send; [exact Hf | exact X1|]. intros n2 p2 _ C2 X2 _ _. apply H; [exact X2|].
    eapply frame_trans; [exact F1 | apply C2]. }
  destruct src as [s|]; [apply wp_ret; apply Hgo; apply ch_refl|]. apply wp_when; intros _.
  - apply wp_eth_add; [exact Logic.I|]. intros n1 _ L1. apply Hgo. exact L1.
  - apply Hgo. apply ch_refl.
Qed.

Lemma wp_handle_receive : forall pid sid a b n p (Q : unit -> node -> Prop), find_id (n_peers n) pid = Some p -> is_established p = true -> ex n ->
  (forall n', ex n' -> frame n n' -> Q tt n') -> wp (handle_receive P pid sid a b) n Q.
Proof.
  intros pid sid a b n p Q Hf He X H. apply wp_bnd. eapply wp_rd; [exact Hf|]. destruct (negb (p_iface p)); [apply wp_ret; apply H; [exact X | apply frame_refl]|].
  apply wp_bnd.
  assert (Hgo : forall n1, lk n n1 -> wp (emit (ODeliver pid sid a) ;; when (c_tap P && c_forward P)%bool (send_data P (Some pid) None a b)) n1 Q).
  { intros n1 L1. apply wp_bnd. apply wp_emit. intros n2 _ L2. assert (L : lk n n2) by (eapply lk_trans; eassumption).
    assert (X2 : ex n2) by (eapply lk_ex; eassumption). apply wp_when; intros _.
    - apply wp_send_data; [exact X2 | exact Logic.I|]. intros n3 X3 F3. apply H; [exact X3 | eapply frame_trans; [exact (ch_frame _ _ _ L) | exact F3]].
    - apply H; [exact X2 | exact (ch_frame _ _ _ L)]. }
  apply wp_when; intros _; [|apply Hgo; apply ch_refl]. apply wp_eth_add; [exists p; split; assumption|]. intros n1 _ L1. apply Hgo. exact L1.
Qed.

(** ** Received payload *)
Lemma m_decrypt_ok : forall now m auth nonce, exists d, m_decrypt now m auth nonce = Ok d.
Proof.
  intros now m auth nonce. destruct m as [s|s]; cbn; [|eexists; reflexivity]. destruct (is_nonce_valid now s nonce) as [age|] eqn:Ev; [|eexists; reflexivity].
  destruct (_ || _)%bool; [eexists; reflexivity|]. pose proof (MethodProofs.nonce_valid_no_ub now s nonce age Ev) as Hn.
  destruct (reorder_check now s nonce age); try (eexists; reflexivity). congruence.
Qed.

Lemma wr_some_lk : forall pid f n p (Q : unit -> node -> Prop), find_id (n_peers n) pid = Some p -> keeps_id f -> core (f p) = core p ->
  (forall n', find_id (n_peers n') pid = Some (f p) -> lk n n' -> Q tt n') -> wp (wr pid f) n Q.
Proof.
  intros pid f n p Q Hf Hk Hc H. eapply wp_wr; [exact Hf | exact Hk|]. intros n1 Hf1 [F1 A1]. apply H; [exact Hf1|]. split; [exact F1|].
  intros q _. destruct (N.eq_dec q pid) as [->|E]; [|exact (A1 q E)]. unfold fcore. rewrite Hf, Hf1. cbn [option_map]. rewrite Hc. reflexivity.
Qed.
Lemma core_sess : forall s p, p_sess p <> None -> core (set_p_sess (Some s) p) = core p.
Proof. intros s p H. unfold core. cbn. destruct (p_sess p); [reflexivity | congruence]. Qed.

Lemma wp_handle_recv : forall pid nonce n p (Q : unit -> node -> Prop), find_id (n_peers n) pid = Some p -> is_established p = true -> ex n ->
  (forall n', ex n' -> frame n n' -> Q tt n') -> wp (handle_recv P pid nonce) n Q.
Proof.
  intros pid nonce n p Q Hf He X H. pose proof (x_peers _ _ X _ _ Hf) as Xp.
  destruct (e_est _ _ Xp ltac:(apply is_est_true; exact He)) as (Ha & Hs & Hk).
  apply wp_bnd. eapply wp_check_session; [exact Hf | exact X | |].
  2:{ intros n1 p1 Hf1 R1 C1 X1. cbn [negb]. apply wp_ret. apply H; [exact X1 | apply C1]. }
  cbn [negb]. apply wp_bnd. eapply wp_rd; [exact Hf|]. apply wp_bnd. apply wp_gets.
  apply wp_bnd. apply wp_flip. intros ao n1 E1 L1. apply wp_bnd. apply wp_flip. intros an n2 E2 L2.
  assert (Hf2 : find_id (n_peers n2) pid = Some p) by (rewrite E2, E1; exact Hf).
  assert (L02 : lk n n2) by (eapply lk_trans; eassumption). clear n1 E1 L1 L2 E2.
  apply wp_bnd.
  (* after both sessions were tried *)
  assert (Hlast : forall (r : option (N * bool)) n4 p4, lk n n4 -> find_id (n_peers n4) pid = Some p4 ->
    wp (match r with
    | None => ret tt
    | Some (sid, fresh) =>
        emit (OSeen pid) ;;
        peer_seen pid ;;
        has_payload <- flip ;;
        src <- pop ;;
        dst <- pop ;;
        when (fresh && has_payload)%bool (handle_receive P pid sid src dst)
    end) n4 Q).
  { intros r n4 p4 L4 Hf4. destruct r as [[sid fresh]|]; [|apply wp_ret; apply H; [eapply lk_ex; eassumption | exact (ch_frame _ _ _ L4)]].
    apply wp_bnd. apply wp_emit. intros n5 E5 L5. apply wp_bnd. eapply wp_seen; [rewrite E5; exact Hf4|]. intros n6 p6 Hf6 L6 _.
    apply wp_bnd. apply wp_flip. intros hp n7 E7 L7. apply wp_bnd. apply wp_pop. intros src n8 E8 L8. apply wp_bnd. apply wp_pop. intros dst n9 E9 L9.
    assert (L : lk n n9) by (repeat (eapply lk_trans; [eassumption|]); apply ch_refl).
    assert (X9 : ex n9) by (eapply lk_ex; eassumption). pose proof (ch_frame _ _ _ L) as F9. apply wp_when; intros _; [|exact (H n9 X9 F9)].
    destruct (lk_find _ _ _ _ L Hf) as (p9 & Hf9 & C9). eapply wp_handle_receive; [exact Hf9 | rewrite (est_of_core _ _ C9); exact He | exact X9|].
    intros n' X' F'. apply H; [exact X' | eapply frame_trans; eassumption]. }
  assert (Hsec : forall (r : option (N * bool)) n3 p3, lk n n3 -> find_id (n_peers n3) pid = Some p3 ->
    wp (r <- match r with
         | Some x => ret (Some x)
         | None =>
             match p_sess p with
             | None => undefined
             | Some s =>
                 d <- lift (m_decrypt (n_now n) (ss_state s) an nonce) ;;
                 match d with
                 | None => ret None
                 | Some (st, fresh) =>
                     let s' := set_ss_state st s in
                     wr pid (fun p => set_p_old None (set_p_sess (Some s') p)) ;;
                     when (negb (ss_cleaned s'))
                       (wr pid (fun p => set_p_next_hs None (set_p_sess (Some (set_ss_flags true (ss_refreshing s') s')) p)) ;;
                        when (m_initiator (ss_state s')) (session_send P pid false)) ;;
                     check_session_refresh pid ;;
                     ret (Some (ss_id s, fresh))
                 end
             end
         end ;;
    match r with
    | None => ret tt
    | Some (sid, fresh) =>
        emit (OSeen pid) ;;
        peer_seen pid ;;
        has_payload <- flip ;;
        src <- pop ;;
        dst <- pop ;;
        when (fresh && has_payload)%bool (handle_receive P pid sid src dst)
    end) n3 Q).
  { intros r n3 p3 L3 Hf3. apply wp_bnd. destruct r as [x|]; [apply wp_ret; exact (Hlast (Some x) n3 p3 L3 Hf3)|].
    destruct (p_sess p) as [s|] eqn:Es; [|congruence]. apply wp_bnd. apply wp_lift. destruct (m_decrypt_ok (n_now n) (ss_state s) an nonce) as (d & Ed).
    exists d. split; [exact Ed|]. destruct d as [[st fresh]|]; [|apply wp_ret; exact (Hlast None n3 p3 L3 Hf3)]. cbv zeta.
    assert (Hs3 : p_sess p3 <> None).
    { destruct (lk_find _ _ _ _ L3 Hf) as (p3' & Y & C3). rewrite Hf3 in Y. injection Y as <-. apply core_inv in C3. destruct C3 as (_ & _ & _ & _ & _ & C3 & _).
      rewrite Es in C3. destruct (p_sess p3); [discriminate | discriminate]. }
    apply wp_bnd. eapply wr_some_lk; [exact Hf3 | intros q; reflexivity | exact (core_sess _ p3 Hs3)|]. intros n4 Hf4 L4.
    assert (L04 : lk n n4) by (eapply lk_trans; eassumption). apply wp_bnd.
    assert (Hcheck : forall n5 p5, lk n n5 -> find_id (n_peers n5) pid = Some p5 -> wp (check_session_refresh pid ;; ret (Some (ss_id s, fresh))) n5
       (fun r n6 => wp (match r with
       | None => ret tt
       | Some (sid, fresh) =>
           emit (OSeen pid) ;;
           peer_seen pid ;;
           has_payload <- flip ;;
           src <- pop ;;
           dst <- pop ;;
           when (fresh && has_payload)%bool (handle_receive P pid sid src dst)
       end) n6 Q)).
    { intros n5 p5 L5 Hf5. destruct (lk_find _ _ _ _ L5 Hf) as (p5' & Y & C5). rewrite Hf5 in Y. injection Y as <-.
      apply wp_bnd. eapply wp_check_refresh; [exact Hf5 | |].
      - apply core_inv in C5. destruct C5 as (_ & _ & _ & _ & _ & C5 & _). rewrite Es in C5. destruct (p_sess p5); [discriminate | discriminate].
      - intros n6 p6 Hf6 _ L6. apply wp_ret. exact (Hlast (Some (ss_id s, fresh)) n6 p6 (lk_trans _ _ _ L5 L6) Hf6). }
    apply wp_when; intros _; [|eapply Hcheck; eassumption].
    apply wp_bnd. eapply wr_some_lk; [exact Hf4 | intros q; reflexivity | reflexivity|].
    intros n5 Hf5 L5. assert (L05 : lk n n5) by (eapply lk_trans; eassumption).
    assert (X5 : ex n5) by (eapply lk_ex; eassumption).
    apply wp_when; intros _; [|eapply Hcheck; eassumption].
    destruct (lk_find _ _ _ _ L05 Hf) as (p5' & Y & C5). rewrite Hf5 in Y. injection Y as <-. apply core_inv in C5. destruct C5 as (_ & _ & _ & C5a & C5b & _).
    eapply wp_session_send; [exact Hf5 | discriminate | intros Z; apply Hk; rewrite <- C5a; exact Z | intros Z; apply Ha; rewrite <- C5b; exact Z | exact X5|].
    intros n6 p6 L6 Hf6 _. eapply Hcheck; [eapply lk_trans; eassumption | exact Hf6]. }
  destruct (p_old p) as [o|]; [|apply wp_ret; exact (Hsec None n2 p L02 Hf2)].
  destruct (m_valid (n_now n) (ss_state o)); [|apply wp_ret; exact (Hsec None n2 p L02 Hf2)].
  apply wp_bnd. apply wp_lift. destruct (m_decrypt_ok (n_now n) (ss_state o) ao nonce) as (d & Ed). exists d. split; [exact Ed|].
  destruct d as [[st fresh]|]; [|apply wp_ret; exact (Hsec None n2 p L02 Hf2)].
  apply wp_bnd. eapply wp_wr_lk; [exact Hf2 | reflexivity|]. intros n3 Hf3 L3. apply wp_ret. exact (Hsec (Some (ss_id o, fresh)) n3 _ (lk_trans _ _ _ L02 L3) Hf3).
Qed.
End Safe.
