(** Two nodes connect, part 3: establishing the session. *)
From Verif Require Import Base BaseLemmas BufferModel BufferProofs NonceModel MethodModel HandshakeModel HandshakeSpec HandshakeProofs HandshakeProofs2 HandshakeProofs3
  NodeModel NodeSpec NodeKeepSpec NodeSteps NodeProofs NodeWire NodeConnectSpec NodeConnect NodeConnect2.
From Coq Require Import Lia ZifyBool ZifyNat ZifyN.
Local Open Scope Z_scope.

(** The socket can be used by the peer *)
Definition usable (pid : N) (sk : sock) (p : peer) : Prop :=
  match sk with SBound _ => True | SDyn o i => o = pid /\ p_sock p = Some sk end.

(** what [establish] makes of the peer, and the effects *)
Record made (now : Z) (p p' : peer) (sk : sock) (ra : addr) (initiator : bool) (serial : N) (hk salt sigma m : bytes) (l : list (Z * out)) : Prop := mk_made {
  md_id : p_id p' = p_id p;
  md_key : p_key p' = p_key p;
  md_group : p_group p' = p_group p;
  md_conf : p_conf p' = p_conf p;
  md_mtu : p_mtu p' = p_mtu p;
  md_state : p_state p' = Established;
  md_addr : p_addr p' = Some ra;
  md_serial : p_serial p' = serial;
  md_sock : usable (p_id p) sk p';
  md_sess : exists x, p_sess p' = Some x /\ ss_method x = m /\ session_is (ss_state x) initiator now /\
    In (now, OSession (p_id p) (p_key p) (p_conf p) initiator serial hk salt sigma m (ss_id x) ra) l;
  md_up : p_state p <> Established -> In (now, OUp (p_id p)) l
}.

Section Peer.
Variable P : params.
Variable n0 : node.
Variables l1 l2 : list peer.
Variable pid : N.
Hypothesis Hoth : others l1 l2 pid.
Notation st := (stt n0 l1 l2).

Lemma usable_send : forall sk p, p_id p = pid -> usable pid sk p ->
  match sk with SBound _ => True | SDyn _ _ => sk = SDyn pid (match sk with SDyn _ i => i | _ => 0%N end) /\ p_sock p = Some sk end.
Proof. intros [k|o i] p E H; [exact Logic.I|]. cbn in H. destruct H as [-> H]. split; [reflexivity | exact H]. Qed.

Lemma does_free : forall p l orc n (Q : unit -> node -> Prop), st p l orc n -> p_id p = pid -> (forall o i, p_sock p = Some (SDyn o i) -> o = pid) ->
  (forall n', st (set_p_sock None p) l orc n' -> Q tt n') -> does (free_socket pid) n Q.
Proof.
  intros p l orc n Q S E Hs H. unfold free_socket. apply does_bnd. eapply does_rd; [exact Hoth | exact S | exact E|].
  destruct (p_sock p) as [[k|o i]|] eqn:Es.
  - eapply does_wr; [exact Hoth | exact S | exact E | exact H].
  - rewrite (Hs o i eq_refl), N.eqb_refl. eapply does_wr; [exact Hoth | exact S | exact E | exact H].
  - apply does_ret. apply H. replace (set_p_sock None p) with p; [exact S|]. destruct p. cbn in *. subst. reflexivity.
Qed.

Definition claimed (p : peer) (sk : sock) (la ra : addr) (p' : peer) : Prop :=
  p' = set_p_laddr (Some la) (set_p_sock (p_sock p') (set_p_addr (Some ra) p)) /\ usable pid sk p' /\
  match sk with SBound k => p_sock p' = Some (SBound k) | SDyn _ _ => p_sock p' = p_sock p end.

Lemma does_claim : forall sk la ra p l orc n (Q : bool -> node -> Prop), st p l orc n -> p_id p = pid -> (forall o i, p_sock p = Some (SDyn o i) -> o = pid) ->
  usable pid sk p -> claim_scan (n_peers n) pid ra true = ClFree ->
  (forall n' p', st p' l orc n' -> claimed p sk la ra p' -> Q true n') ->
  does (claim_address P pid (Some sk) (Some la) ra true) n Q.
Proof.
  intros sk la ra p l orc n Q S E Hs Hu Hc H. unfold claim_address. apply does_bnd. apply does_gets. rewrite Hc. apply does_bnd. apply does_ret.
  apply does_bnd. eapply does_wr; [exact Hoth | exact S | exact E|]. intros n1 S1. apply does_bnd.
  destruct sk as [k|o i].
  - apply does_bnd. eapply does_rd; [exact Hoth | exact S1 | exact E|].
    assert (G : forall n2 q, st q l orc n2 -> q = set_p_sock (Some (SBound k)) (set_p_addr (Some ra) p) ->
      does (wr pid (set_p_laddr (Some la)) ;; ret true) n2 Q).
    { intros n2 q S2 ->. apply does_bnd. eapply does_wr; [exact Hoth | exact S2 | exact E|]. intros n3 S3. apply does_ret. eapply H; [exact S3|].
      split; [reflexivity|]. split; [exact Logic.I | reflexivity]. }
    assert (F : does (free_socket pid ;; wr pid (set_p_sock (Some (SBound k)))) n1 (fun _ n2 => does (wr pid (set_p_laddr (Some la)) ;; ret true) n2 Q)).
    { apply does_bnd. eapply does_free; [exact S1 | exact E | exact Hs|]. intros n2 S2. eapply does_wr; [exact Hoth | exact S2 | exact E|]. intros n3 S3.
      eapply G; [exact S3|]. reflexivity. }
    cbn [p_sock set_p_addr]. destruct (p_sock p) as [[k'|o' i']|] eqn:Es; [|exact F | exact F].
    unfold when. destruct (N.eqb_spec k k') as [->|Hne]; cbn [negb]; [|exact F].
    apply does_ret. eapply G; [exact S1|]. destruct p. cbn in *. subst. reflexivity.
  - destruct Hu as [-> Hu]. exists tt, n1. split.
    { unfold use_sock, bnd, gets, sock_alive. rewrite (st_peers _ _ _ _ _ _ _ S1).
      assert (F : find_id (l1 ++ set_p_addr (Some ra) p :: l2) pid = Some (set_p_addr (Some ra) p)) by (rewrite <- E; apply (find_mid l1 l2 (set_p_addr (Some ra) p)); cbn; rewrite E; exact Hoth).
      rewrite F. cbn [p_sock set_p_addr]. rewrite Hu. cbn [sock_eqb]. rewrite !N.eqb_refl. reflexivity. }
    apply does_bnd. eapply does_wr; [exact Hoth | exact S1 | exact E|]. intros n2 S2. apply does_ret. eapply H; [exact S2|].
    split; [destruct p; reflexivity|]. split; [split; [reflexivity | exact Hu] | reflexivity].
Qed.

Lemma superseded_core : forall now m p, exists o, superseded now m p = set_p_old o p.
Proof.
  intros now m p. unfold superseded. cbv zeta.
  destruct (_ && _)%bool.
  - cbn [p_old set_p_old]. destruct (p_sess p) as [o|]; [|exists None; destruct p; reflexivity].
    destruct (bytes_eqb _ _); eexists; destruct p; reflexivity.
  - destruct (p_old p) as [o|] eqn:Eo; [|exists None; destruct p; cbn in *; subst; reflexivity].
    destruct (bytes_eqb _ _); eexists; destruct p; reflexivity.
Qed.

Lemma does_new_session : forall m initiator hk salt sigma serial ra p l orc n (Q : bool -> node -> Prop), st p l orc n -> p_id p = pid -> nth 0 orc 0%N = 0%N ->
  (forall n' x o, st (set_p_serial serial (set_p_sess (Some x) (set_p_old o p)))
                     ((n_now n0, OSession pid (p_key p) (p_conf p) initiator serial hk salt sigma m (ss_id x) ra) :: l) (skipn 2 orc) n' ->
     ss_method x = m -> session_is (ss_state x) initiator (n_now n0) ->
     (forall c, ss_state x = MCommon c -> s_send c = [0; 0; 0; 0; 0; if initiator then 3 else 2]%N) -> Q true n') ->
  does (new_session P pid m initiator false hk salt sigma serial ra) n Q.
Proof.
  intros m initiator hk salt sigma serial ra p l orc n Q S E Ho H. unfold new_session. apply does_bnd. eapply does_flip; [exact S|]. intros n1 S1.
  rewrite Ho. cbn [N.eqb negb]. apply does_bnd. apply does_gets. apply does_bnd. eapply does_rand; [exact S1|]. intros n2 z _ S2.
  apply does_bnd. apply does_gets. apply does_bnd. apply does_modn. apply does_bnd.
  assert (S3 : st p l (skipn 1 (skipn 1 orc)) (set_n_next_sid (n_next_sid n2 + 1) n2)) by (destruct S2; constructor; assumption).
  eapply does_rd; [exact Hoth | exact S3 | exact E|]. apply does_bnd. unfold supersede_session. apply does_bnd. apply does_gets. eapply does_wr; [exact Hoth | exact S3 | exact E|].
  intros n4 S4. destruct (superseded_core (n_now (set_n_next_sid (n_next_sid n2 + 1) n2)) m p) as [o Eo]. rewrite Eo in S4.
  apply does_bnd. eapply does_wr; [exact Hoth | exact S4 | exact E|]. intros n5 S5. apply does_bnd. eapply does_out; [exact S5|]. intros n6 S6. apply does_ret.
  assert (Esk : skipn 1 (skipn 1 orc) = skipn 2 orc) by (destruct orc as [|? [|? ?]]; reflexivity). rewrite Esk in S6. eapply H; [exact S6 | reflexivity | |].
  - cbn [ss_state]. destruct (c_null P m); cbn [session_is n_initiator n_compat n_valid]; [split; [reflexivity|]; split; reflexivity|].
    unfold common_init. cbn [s_initiator s_compat s_valid_till s_send nth]. split; [reflexivity|]. split; [reflexivity|]. split; [|reflexivity].
    rewrite (st_now _ _ _ _ _ _ _ S1). unfold KEY_VALID. lia.
  - cbn [ss_state]. intros c Ec. destruct (c_null P m); [discriminate|]. injection Ec as <-. reflexivity.
Qed.

Lemma does_set_established : forall p l orc n (Q : bool -> node -> Prop), st p l orc n -> p_id p = pid -> (p_iface p = true \/ nth 0 orc 0%N <> 0%N) ->
  (forall n' p' l' orc', st p' (l' ++ l) orc' n' -> p_state p' = Established -> core (set_p_state (p_state p) (set_p_iface (p_iface p) p')) = core p ->
     (p_state p <> Established -> In (n_now n0, OUp pid) l') -> Q true n') ->
  does (set_established pid) n Q.
Proof.
  intros p l orc n Q S E Hi H. unfold set_established. apply does_bnd. eapply does_rd; [exact Hoth | exact S | exact E|]. apply does_bnd.
  assert (G : forall n1 p1 orc1, st p1 l orc1 n1 -> p1 = set_p_iface true p ->
    does (if negb true then ret false else if is_established p then ret true else
      wr pid (set_p_state Established) ;; peer_seen pid ;; clear_keepalive pid ;; schedule_peer_task pid ;; emit (OUp pid) ;; ret true) n1 Q).
  { intros n1 p1 orc1 S1 ->. cbn [negb]. destruct (is_established p) eqn:Ee.
    - apply does_ret. assert (p_state p = Established) by (unfold is_established in Ee; destruct (p_state p); try discriminate; reflexivity).
      eapply (H n1 _ [] orc1); [exact S1 | exact H0 | destruct p; reflexivity | intros X; contradiction].
    - apply does_bnd. eapply does_wr; [exact Hoth | exact S1 | exact E|]. intros n2 S2. apply does_bnd. unfold peer_seen. apply does_bnd. apply does_gets.
      eapply does_wr; [exact Hoth | exact S2 | exact E|]. intros n3 S3. apply does_bnd. unfold clear_keepalive. apply does_bnd. apply does_gets.
      eapply does_wr; [exact Hoth | exact S3 | exact E|]. intros n4 S4. apply does_bnd. eapply does_schedule; [exact Hoth | exact S4 | exact E|]. intros n5 tk S5.
      apply does_bnd. eapply does_out; [exact S5|]. intros n6 S6. apply does_ret. eapply (H n6 _ [_] orc1); [exact S6 | reflexivity | destruct p; reflexivity|].
      intros _. left. reflexivity. }
  destruct (p_iface p) eqn:Ei.
  - apply does_ret. eapply G; [exact S|]. destruct p. cbn in *. subst. reflexivity.
  - destruct Hi as [Hi|Hi]; [discriminate|]. apply does_bnd. eapply does_flip; [exact S|]. intros n1 S1. destruct (N.eqb_spec (nth 0 orc 0%N) 0) as [X|_]; [contradiction|].
    cbn [negb when]. apply does_bnd. eapply does_wr; [exact Hoth | exact S1 | exact E|]. intros n2 S2. apply does_ret. eapply G; [exact S2 | reflexivity].
Qed.

Lemma core_proj : forall p q, core p = core q ->
  p_id p = p_id q /\ p_key p = p_key q /\ p_group p = p_group q /\ p_mtu p = p_mtu q /\ p_conf p = p_conf q /\ p_sock p = p_sock q /\
  p_addr p = p_addr q /\ p_state p = p_state q /\ p_sess p = p_sess q /\ p_serial p = p_serial q.
Proof. intros p q E. unfold core in E. injection E as ? ? ? ? ? ? ? ? ? ? ? ? ? ? ? ?. repeat split; assumption. Qed.

Lemma does_establish : forall m sk la ra initiator hk salt sigma serial p l orc n (Q : bool -> node -> Prop),
  st p l orc n -> p_id p = pid -> (forall o i, p_sock p = Some (SDyn o i) -> o = pid) -> usable pid sk p ->
  claim_scan (n_peers n) pid ra true = ClFree -> (p_serial p < serial)%N -> nth 0 orc 0%N = 0%N -> (p_iface p = true \/ nth 2 orc 0%N <> 0%N) ->
  (forall n' p' l' orc', st p' (l' ++ l) orc' n' -> made (n_now n0) p p' sk ra initiator serial hk salt sigma m l' -> Q true n') ->
  does (establish P pid m sk la ra initiator false hk salt sigma serial) n Q.
Proof.
  intros m sk la ra initiator hk salt sigma serial p l orc n Q S E Hs Hu Hc Hser Ho1 Ho2 H. unfold establish. apply does_bnd. eapply does_rd; [exact Hoth | exact S | exact E|].
  destruct (N.leb_spec serial (p_serial p)) as [X|_]; [lia|]. apply does_bnd. eapply does_claim; try eassumption. intros n1 p1 S1 (E1 & U1 & K1). cbn [negb].
  assert (Hid1 : p_id p1 = pid) by (rewrite E1; exact E).
  apply does_bnd. eapply does_new_session; [exact S1 | exact Hid1 | exact Ho1|]. intros n2 x o S2 Hm Hx Hsend. cbn [negb].
  apply does_bnd. eapply does_set_established; [exact S2 | exact Hid1 | |].
  { rewrite E1. cbn. destruct Ho2 as [X|X]; [left; exact X|]. right. destruct orc as [|x0 [|x1 orc]]; cbn in X |- *; assumption. }
  intros n3 p3 l3 orc3 S3 Est3 C3 Hup. cbn [negb]. apply does_bnd. apply does_gets. apply does_bnd.
  assert (Hid3 : p_id p3 = pid) by (apply core_id in C3; exact (eq_trans C3 Hid1)).
  eapply does_wr; [exact Hoth | exact S3 | exact Hid3|]. intros n4 S4. apply does_bnd.
  pose proof (core_proj _ _ C3) as (D1 & D2 & D3 & D4 & D5 & D6 & D7 & D8 & D9 & D10).
  cbn [p_id p_key p_group p_mtu p_conf p_sock p_addr p_state p_sess p_serial set_p_state set_p_iface set_p_serial set_p_sess set_p_old] in D1, D2, D3, D4, D5, D6, D7, D8, D9, D10.
  assert (G : forall n' p' l' orc', st p' (l' ++ l3 ++ (n_now n0, OSession pid (p_key p1) (p_conf p1) initiator serial hk salt sigma m (ss_id x) ra) :: l) orc' n' ->
    p_id p' = p_id p3 -> p_key p' = p_key p3 -> p_group p' = p_group p3 -> p_mtu p' = p_mtu p3 -> p_conf p' = p_conf p3 -> p_sock p' = p_sock p3 ->
    p_addr p' = p_addr p3 -> p_state p' = Established -> p_serial p' = p_serial p3 ->
    (exists y, p_sess p' = Some y /\ ss_method y = m /\ ss_id y = ss_id x /\ session_is (ss_state y) initiator (n_now n0)) -> Q true n').
  { intros n' p' l' orc' S' F1 F2 F3 F4 F5 F6 F7 F8 F9 (y & Y1 & Y2 & Y3 & Y4).
    eapply (H n' p' (l' ++ l3 ++ [(n_now n0, OSession pid (p_key p1) (p_conf p1) initiator serial hk salt sigma m (ss_id x) ra)])).
    { rewrite <- !app_assoc. exact S'. }
    assert (P1 : p_key p1 = p_key p /\ p_conf p1 = p_conf p /\ p_group p1 = p_group p /\ p_mtu p1 = p_mtu p /\ p_addr p1 = Some ra /\ p_state p1 = p_state p) by (rewrite E1; repeat split).
    destruct P1 as (P1 & P2 & P3 & P4 & P5 & P6).
    constructor; try congruence.
    - rewrite E. unfold usable in *. destruct sk as [k|o' i']; [exact Logic.I|]. destruct U1 as [U1 U2]. split; [exact U1|]. rewrite F6, D6. exact U2.
    - exists y. split; [exact Y1|]. split; [exact Y2|]. split; [exact Y4|]. apply in_or_app. right. apply in_or_app. right. left. rewrite Y3, P1, P2, E. reflexivity.
    - intros X. apply in_or_app. right. apply in_or_app. left. rewrite E. apply Hup. cbn. rewrite P6. exact X. }
  destruct initiator.
  - unfold schedule_handshake_default, schedule_handshake, set_next_handshake. apply does_bnd. unfold handshake_default_rand. eapply does_rand; [exact S4|]. intros n5 z _ S5.
    apply does_bnd. apply does_bnd. apply does_gets. eapply does_wr; [exact Hoth | exact S5 | exact Hid3|]. intros n6 S6.
    eapply does_schedule; [exact Hoth | exact S6 | exact Hid3|]. intros n7 tk S7. apply does_ret.
    eapply (G n7 _ []); [exact S7 | reflexivity .. | exact Est3 | reflexivity |]. exists x. split; [exact D9|]. split; [exact Hm|]. split; [reflexivity | exact Hx].
  - unfold session_send. apply does_bnd. eapply does_rd; [exact Hoth | exact S4 | exact Hid3|]. cbn [p_sess set_p_eh_to]. rewrite D9.
    apply does_bnd. eapply does_flip; [exact S4|]. intros n5 S5. destruct (negb (N.eqb _ _)).
    + eapply does_out; [exact S5|]. intros n6 S6. apply does_ret. eapply (G n6 _ [_]); [exact S6 | reflexivity .. | exact Est3 | reflexivity |].
      exists x. split; [exact D9|]. split; [exact Hm|]. split; [reflexivity | exact Hx].
    + cbv zeta. cbn match. apply does_bnd. eapply does_wr; [exact Hoth | exact S5 | exact Hid3|]. intros n6 S6. apply does_bnd.
      assert (Y : session_is (match ss_state x with MCommon c => MCommon (set_send c (increment_nonce (s_send c))) | MNull c => MNull c end) false (n_now n0)).
      { destruct (ss_state x) as [c|c] eqn:Ex; [|exact Hx]. cbn [session_is] in Hx |- *. destruct Hx as (X1 & X2 & X3 & X4). cbn [set_send s_initiator s_compat s_valid_till s_send].
        rewrite (Hsend c eq_refl). split; [exact X1|]. split; [exact X2|]. split; [exact X3 | reflexivity]. }
      cbn [p_sock p_addr set_p_eh_to]. rewrite D7, E1. cbn [p_addr set_p_laddr set_p_sock set_p_addr].
      assert (Hsk : p_sock p3 = Some sk) by (rewrite D6; destruct sk as [k|o' i']; [exact K1 | exact (proj2 U1)]). rewrite Hsk.
      eapply does_send with (2 := S6); [exact Hoth | exact Hid3 | |].
      { apply usable_send; [exact Hid3|]. unfold usable in *. destruct sk as [k|o' i']; [exact Logic.I|]. split; [exact (proj1 U1)|]. exact Hsk. }
      intros n7 p7 orc7 S7 C7. pose proof (core_proj _ _ C7) as (T1 & T2 & T3 & T4 & T5 & T6 & T7 & T8 & T9 & T10).
      cbn [p_id p_key p_group p_mtu p_conf p_sock p_addr p_state p_sess p_serial set_p_eh_to set_p_sess] in T1, T2, T3, T4, T5, T6, T7, T8, T9, T10.
      unfold when. destruct (negb (c_force_keepalive P (ss_method x))).
      * unfold clear_keepalive. apply does_bnd. apply does_gets. eapply does_wr; [exact Hoth | exact S7 | congruence|]. intros n8 S8. apply does_ret.
        eapply (G n8 _ [_]); [exact S8 | assumption .. | exact (eq_trans T8 Est3) | exact T10 |]. eexists. split; [exact T9|]. split; [exact Hm|]. split; [reflexivity | exact Y].
      * apply does_ret. apply does_ret. eapply (G n7 _ [_]); [exact S7 | assumption .. | exact (eq_trans T8 Est3) | exact T10 |].
        eexists. split; [exact T9|]. split; [exact Hm|]. split; [reflexivity | exact Y].
Qed.
End Peer.
