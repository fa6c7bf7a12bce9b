(** The functions of the node model as steps that preserve the invariant:
    sending, receiving, timers *)
From Verif Require Import Base BufferModel NonceModel MethodModel HandshakeModel NodeModel NodeSteps NodeWf NodeInv NodeFun.
From Coq Require Import Lia ZifyBool ZifyNat ZifyN Sorted.
Local Open Scope Z_scope.

Ltac tchain :=
  repeat match goal with
  | |- to _ _ _ ?n ?n => apply to_refl; assumption
  | T : to ?P ?ev ?a ?n ?m |- to ?P ?ev ?b ?n _ =>
      first [ exact T
            | apply (to_mono P ev a b n m); [solve [auto with fle] | exact T]
            | apply (to_trans P ev b n m); [apply (to_mono P ev a b n m); [solve [auto with fle] | exact T] |]; clear T ]
  end.

Section Fun.
Variables (P : params) (ev : event).
Notation Inv := (inv P).
Notation To := (to P ev).
Notation St := (steps P ev).

Lemma orc_to : forall n n', (exists l, n' = set_n_orc l n) -> Inv n -> To fq n n'.
Proof. intros n n' H I. apply to_quiet; [eapply same_steps; exact H | exact I]. Qed.
Lemma flip_to : forall x n n', flip n = Ok (x, n') -> Inv n -> To fq n n'.
Proof. intros x n n' H I. apply orc_to; [eapply flip_same; exact H | exact I]. Qed.
Lemma pop_to : forall x n n', pop n = Ok (x, n') -> Inv n -> To fq n n'.
Proof. intros x n n' H I. apply orc_to; [eapply pop_same; exact H | exact I]. Qed.
Lemma default_rand_to : forall x n n', handshake_default_rand n = Ok (x, n') -> Inv n -> To fq n n'.
Proof. intros x n n' H I. apply orc_to; [eapply default_rand_same; exact H | exact I]. Qed.
Lemma wr_to : forall pid f x n n', wr pid f n = Ok (x, n') -> Inv n ->
  (forall p, find_id (n_peers n) pid = Some p -> pstep P fq n p (f p)) -> To fq n n'.
Proof. intros pid f x n n' H I Hp. apply to_quiet; [eapply wr_steps; eassumption | exact I]. Qed.
Lemma emit_to : forall o x n n', emit o n = Ok (x, n') -> Inv n -> plain_out P ev fq n o -> To fq n n'.
Proof. intros o x n n' H I Hp. apply to_quiet; [eapply emit_steps; eassumption | exact I]. Qed.
Lemma send_packet_to : forall sk dst pid o x n n', send_packet sk dst pid o n = Ok (x, n') -> Inv n -> oact pid n ->
  (forall a, dst = Some a -> plain_out P ev fq n (o a)) -> To fq n n'.
Proof. intros sk dst pid o x n n' H I Ha Ho. apply to_quiet; [eapply send_packet_steps; eassumption | exact I]. Qed.

Ltac timer := cbv beta; first [ apply ps_same
                    | apply ps_timer'; do 5 eexists; reflexivity ].

Lemma set_next_handshake_to : forall pid d x n n', set_next_handshake pid d n = Ok (x, n') -> Inv n -> To fq n n'.
Proof. intros pid d x n n' H I. apply to_quiet; [eapply set_next_handshake_steps; exact H | exact I]. Qed.
Lemma clear_keepalive_to : forall pid x n n', clear_keepalive pid n = Ok (x, n') -> Inv n ->
  (forall p, find_id (n_peers n) pid = Some p -> is_established p = true -> sent_at n pid) -> To fq n n'.
Proof. intros pid x n n' H I Hs. apply to_quiet; [eapply clear_keepalive_steps; eassumption | exact I]. Qed.
Lemma to_still : forall fl n n', St fl n n' -> quiet fl -> f_cl fl = false -> Inv n -> To fl n n'.
Proof. intros fl n n' H Q Hc I. apply to_intro; [exact H | exact Hc | apply Q | exact I | eapply inv_quiet; eassumption]. Qed.
Lemma seen_to : forall pid x y n m n', emit (OSeen pid) n = Ok (x, m) -> peer_seen pid m = Ok (y, n') -> Inv n -> To (fv pid) n n'.
Proof.
  intros pid x y n m n' H1 H2 I. apply emit_ok in H1. subst m. unfold peer_seen in H2. bind H2 as now m H1. apply gets_ok in H1. destruct H1 as [-> ->].
  apply wr_ok in H2. destruct H2 as (p & Hf & ->). apply to_still; [|split; reflexivity | reflexivity | exact I]. apply steps_one.
  exact (N_seen P ev (fv pid) n pid p (N.eqb_refl pid) Hf).
Qed.
Lemma schedule_handshake_to : forall pid d x n n', schedule_handshake pid d n = Ok (x, n') -> Inv n -> act pid n -> To fq n n'.
Proof. intros pid d x n n' H I Ha. apply to_quiet; [eapply schedule_handshake_steps; eassumption | exact I]. Qed.
Lemma schedule_handshake_default_to : forall pid x n n', schedule_handshake_default pid n = Ok (x, n') -> Inv n -> act pid n -> To fq n n'.
Proof. intros pid x n n' H I Ha. apply to_quiet; [eapply schedule_handshake_default_steps; eassumption | exact I]. Qed.
Lemma schedule_peer_task_to : forall pid x n n', schedule_peer_task pid n = Ok (x, n') -> Inv n -> act pid n -> To fq n n'.
Proof. intros pid x n n' H I Ha. apply to_quiet; [eapply schedule_peer_task_steps; eassumption | exact I]. Qed.
Lemma handshake_init_to : forall sk dst pid x n n', handshake_init sk dst pid n = Ok (x, n') -> Inv n -> oact pid n -> To fq n n'.
Proof. intros sk dst pid x n n' H I Ha. apply to_quiet; [eapply handshake_init_steps; eassumption | exact I]. Qed.
Lemma reset_socket_to : forall pid x n n', reset_socket pid n = Ok (x, n') -> Inv n -> act pid n -> To fq n n'.
Proof. intros pid x n n' H I Ha. apply to_quiet; [eapply reset_socket_steps; eassumption | exact I]. Qed.
Lemma resolve_peer_to : forall pid i x n n', resolve_peer pid i n = Ok (x, n') -> Inv n -> To fq n n'.
Proof. intros pid i x n n' H I. apply to_quiet; [eapply resolve_peer_steps; exact H | exact I]. Qed.
Lemma remote_to : forall pid i f x n n', wr pid (set_remote i f) n = Ok (x, n') -> Inv n -> (forall r, pstatic (f r) = pstatic r) -> To fq n n'.
Proof. intros pid i f x n n' H I Hf. apply to_quiet; [eapply remote_steps; eassumption | exact I]. Qed.
Lemma act_quiet : forall n n' pid, To fq n n' -> Inv n -> act pid n -> act pid n'.
Proof. intros n n' pid [[S _] _] I Ha. exact (act_steps_quiet P ev n n' pid S I Ha). Qed.

(** a peer with an address, a socket or a session is set up *)
Lemma used_act : forall n pid p, Inv n -> find_id (n_peers n) pid = Some p ->
  p_addr p <> None \/ p_sock p <> None \/ p_sess p <> None \/ p_old p <> None \/ p_task p <> None -> act pid n.
Proof.
  intros n pid p I Hf Hu q Hq. rewrite Hf in Hq. injection Hq as <-. intros Es. apply find_id_in in Hf. destruct Hf as [Hin _].
  destruct (pi_clean _ _ (i_pinv _ _ (i_0 _ _ I) p Hin) Es) as (E1 & E2 & E3 & E4 & E5). tauto.
Qed.
Lemma act_enabled : forall n pid, Inv n -> act pid n -> en pid n.
Proof. intros n pid I Ha p Hp. apply (i_alive _ _ I pid p Hp). exact (Ha p Hp). Qed.
Lemma found_act : forall n pid p, find_id (n_peers n) pid = Some p -> p_state p <> Inactive -> act pid n.
Proof. intros n pid p Hf Hs q Hq. rewrite Hf in Hq. injection Hq as <-. exact Hs. Qed.
Lemma est_act : forall n pid p, find_id (n_peers n) pid = Some p -> is_established p = true -> act pid n.
Proof. intros n pid p Hf He. eapply found_act; [exact Hf|]. apply is_est_true in He. congruence. Qed.

(** ** Loops *)
Lemma each_to : forall A (f : A -> M unit) fl l x n n', each f l n = Ok (x, n') -> Inv n ->
  (forall a y m m', f a m = Ok (y, m') -> Inv m -> To fl m m') -> To fl n n'.
Proof.
  intros A f fl l. induction l as [|a l IH]; intros x n n' H I Hf; cbn [each] in H.
  - apply ret_ok in H. destruct H as [_ ->]. apply to_refl. exact I.
  - bind H as u m H1. pose proof (Hf _ _ _ _ H1 I) as T1. eapply to_trans; [exact T1|]. eapply IH; [exact H | apply T1 | exact Hf].
Qed.

(** ** Payload *)
Lemma check_session_refresh_to : forall pid x n n', check_session_refresh pid n = Ok (x, n') -> Inv n -> To fq n n'.
Proof.
  intros pid x n n' H I. unfold check_session_refresh in H. bind H as p m H1. apply rd_ok in H1. destruct H1 as [Hf ->].
  bind H as now m H1. apply gets_ok in H1. destruct H1 as [-> ->]. destruct (p_sess p) as [s|] eqn:Es; [|discriminate].
  unfold when in H. destruct (_ && _)%bool; [|apply ret_ok in H; destruct H as [_ ->]; apply to_refl; exact I].
  bind H as u m H1. assert (Ha : act pid n) by (eapply used_act; [exact I | exact Hf | right; right; left; congruence]).
  apply wr_to in H1; [|exact I | intros q Hq; rewrite Hf in Hq; injection Hq as <-; apply ps_flags; exact Es].
  apply schedule_handshake_to in H; [|apply H1 | eapply act_quiet; eassumption]. tchain.
Qed.

Lemma check_session_refresh_keeps : forall pid x n n', check_session_refresh pid n = Ok (x, n') ->
  exists p p', find_id (n_peers n) pid = Some p /\ find_id (n_peers n') pid = Some p' /\ p_old p' = p_old p /\
    p_addr p' = p_addr p /\ n_now n' = n_now n /\
    exists s s', p_sess p = Some s /\ p_sess p' = Some s' /\ ss_state s' = ss_state s /\ ss_id s' = ss_id s.
Proof.
  intros pid x n n' H. unfold check_session_refresh in H. bind H as p m H1. apply rd_ok in H1. destruct H1 as [Hf ->].
  bind H as now m H1. apply gets_ok in H1. destruct H1 as [-> ->]. destruct (p_sess p) as [s|] eqn:Es; [|discriminate].
  unfold when in H. destruct (_ && _)%bool.
  - bind H as u m H1. apply wr_ok in H1. destruct H1 as (p1 & _ & ->).
    unfold schedule_handshake in H. bind H as u2 m2 H2. unfold set_next_handshake in H2. bind H2 as t m3 H3. apply gets_ok in H3. destruct H3 as [-> ->].
    apply wr_ok in H2. destruct H2 as (p2 & _ & ->). unfold schedule_peer_task in H. apply wr_ok in H. destruct H as (p3 & _ & ->).
    cbn [n_peers set_n_peers n_now]. rewrite !upd_upd by (intros q; reflexivity).
    match goal with |- context [upd_id _ pid ?f] =>
      assert (Hfind : find_id (upd_id (n_peers n) pid f) pid = Some (f p)) by (refine (find_id_upd_same (n_peers n) pid f p _ Hf); intros q; cbv beta; kid) end.
    rewrite Hfind. do 2 eexists. split; [exact Hf|]. split; [reflexivity|]. cbv beta. cbn.
    destruct (omin _ _) as [t|]; [destruct (p_task p) as [t'|]; [destruct (t <? t')|]|]; cbn;
      (repeat split; exists s, (set_ss_flags true true s); repeat split; assumption).
  - apply ret_ok in H. destruct H as [_ ->]. exists p, p. split; [exact Hf|]. split; [exact Hf|]. repeat split. exists s, s. repeat split; assumption.
Qed.

Lemma check_session_to : forall pid b n n', check_session P pid n = Ok (b, n') -> Inv n ->
  To (fr pid) n n' /\ (b = true -> n' = n /\ exists p, find_id (n_peers n) pid = Some p /\ sess_valid (n_now n) (p_sess p) = true) /\
  (b = false -> unest pid n').
Proof.
  intros pid b n n' H I. unfold check_session in H. bind H as p m H1. apply rd_ok in H1. destruct H1 as [Hf ->].
  bind H as now m H1. apply gets_ok in H1. destruct H1 as [-> ->]. destruct (sess_valid (n_now n) (p_sess p)) eqn:Ev.
  - apply ret_ok in H. destruct H as [<- ->]. split; [apply to_refl; exact I|].
    split; [|discriminate]. intros _. split; [reflexivity|]. exists p. split; assumption.
  - bind H as u m H1. apply ret_ok in H. destruct H as [<- ->]. split; [eapply peer_reset_to; eassumption|]. split; [discriminate|].
    intros _. eapply (peer_reset_unest P ev); [exact H1 | apply I].
Qed.

Lemma session_send_to : forall pid old x n n', session_send P pid old n = Ok (x, n') -> Inv n ->
  (forall p s, find_id (n_peers n) pid = Some p -> (if old then p_old p else p_sess p) = Some s -> m_valid (n_now n) (ss_state s) = true) ->
  To fq n n' /\ sent_at n' pid.
Proof.
  intros pid old x n n' H I Hv. unfold session_send in H. bind H as p m H1. apply rd_ok in H1. destruct H1 as [Hf ->].
  destruct (if old then p_old p else p_sess p) as [s|] eqn:Es; [|discriminate]. specialize (Hv p s Hf Es).
  assert (Ha : act pid n).
  { eapply used_act; [exact I | exact Hf|]. destruct old; [right; right; right; left; congruence | right; right; left; congruence]. }
  bind H as failed m H1. pose proof (flip_to _ _ _ H1 I) as T1. apply flip_same in H1. destruct H1 as [l ->].
  destruct failed.
  { split; [apply emit_to in H; [tchain | apply T1 | exact Logic.I]|]. apply emit_ok in H. subst n'.
    exists (OEncFail pid). split; [left; reflexivity | reflexivity]. }
  cbv zeta in H.
  assert (Ha1 : act pid (set_n_orc l n)) by exact Ha.
  bind H as u2 m2 H2. apply wr_ok in H2. destruct H2 as (p2 & _ & ->).
  bind H as u3 m3 H3. apply send_packet_ok in H3. destruct H3 as (sk & dst & _ & Edst & _ & H3).
  match type of H3 with send_retry _ ?m = _ => assert (T2 : To fq (set_n_orc l n) m) end.
  { apply to_quiet; [|apply T1]. apply steps_one.
    exact (N_send P ev fq (set_n_orc l n) pid p s old dst Hf Edst Es Hv). }
  match type of H3 with send_retry _ ?m = _ => assert (S2 : sent_at m pid) end.
  { eexists. split; [left; reflexivity | reflexivity]. }
  pose proof (act_quiet _ _ _ T2 (proj2 T1) Ha1) as Ha2.
  assert (T3 := to_quiet P ev fq _ _ (send_retry_steps P ev fq (Some pid) _ _ _ H3 Ha2) (proj2 T2)).
  pose proof (sent_at_steps _ _ _ _ _ _ (to_steps _ _ _ _ _ T3) S2) as S3.
  assert (T4 : To fq m3 n').
  { unfold when in H. destruct (negb _); [eapply clear_keepalive_to; [exact H | apply T3 | intros q _ _; exact S3] | apply ret_ok in H; destruct H as [_ ->]; apply to_refl; apply T3]. }
  split; [tchain | exact (sent_at_steps _ _ _ _ _ _ (to_steps _ _ _ _ _ T4) S3)].
Qed.

Lemma protocol_send_to : forall pid x n n', protocol_send P pid n = Ok (x, n') -> Inv n ->
  To (fr pid) n n' /\ (forall p', find_id (n_peers n') pid = Some p' -> is_established p' = true -> sent_at n' pid).
Proof.
  intros pid x n n' H I. unfold protocol_send in H. bind H as p m H1. apply rd_ok in H1. destruct H1 as [Hf ->].
  destruct (is_established p) eqn:Est0; cbn [negb] in H; [|apply ret_ok in H; destruct H as [_ ->]; split; [apply to_refl; exact I | intros q Hq Hq2; congruence]].
  bind H as ok m H1. pose proof (check_session_to _ _ _ _ H1 I) as (T1 & Hok & Hno).
  destruct ok; cbn [negb] in H; [|apply ret_ok in H; destruct H as [_ ->]; split; [exact T1 | intros q Hq Hq2; specialize (Hno eq_refl q Hq); congruence]].
  destruct (Hok eq_refl) as (-> & p0 & Hf0 & Hv). rewrite Hf in Hf0. injection Hf0 as <-.
  bind H as u m H2. pose proof (check_session_refresh_keeps _ _ _ _ H2) as (p1 & p2 & Hp1 & Hp2 & Eo & _ & En & s & s' & Es & Es' & Est & _).
  pose proof (check_session_refresh_to _ _ _ _ H2 I) as T2. rewrite Hf in Hp1. injection Hp1 as <-.
  bind H as p3 m3 H3. apply rd_ok in H3. destruct H3 as [Hf3 ->]. rewrite Hp2 in Hf3. injection Hf3 as <-.
  bind H as now m3 H3. apply gets_ok in H3. destruct H3 as [-> ->]. rewrite Es' in H.
  assert (A : To fq m n' /\ sent_at n' pid); [|destruct A as [A1 A2]; split; [tchain | intros _ _ _; exact A2]].
  eapply session_send_to; [exact H | apply T2|]. intros q sq Hq Hsq. rewrite Hp2 in Hq. injection Hq as <-.
  destruct (m_initiator (ss_state s') && sess_valid (n_now m) (p_old p2))%bool eqn:E.
  - apply andb_prop in E. destruct E as [_ E]. unfold sess_valid in E. rewrite Hsq in E. exact E.
  - rewrite Es' in Hsq. injection Hsq as <-. rewrite Est, En. unfold sess_valid in Hv. rewrite Es in Hv. exact Hv.
Qed.

(** ** Ethernet addresses *)
Lemma eth_add_to : forall pid a x n n', eth_add pid a n = Ok (x, n') -> Inv n -> To fq n n'.
Proof.
  intros pid a x n n' H I. unfold eth_add in H. bind H as ok m H1.
  assert (A : m = n /\ (ok = true -> match pid with Some pid => exists p, find_id (n_peers n) pid = Some p /\ is_established p = true | None => True end)).
  { destruct pid as [pid|].
    - bind H1 as p m1 H2. apply rd_ok in H2. destruct H2 as [Hf ->]. apply ret_ok in H1. destruct H1 as [<- ->]. split; [reflexivity|].
      intros E. exists p. split; assumption.
    - apply ret_ok in H1. destruct H1 as [_ ->]. split; [reflexivity | trivial]. }
  destruct A as [-> A]. destruct ok; cbn [negb] in H; [|discriminate]. specialize (A eq_refl). apply modn_ok in H.
  apply to_quiet; [|exact I]. rewrite H. apply steps_one. apply N_eth. intros e [<- | Hin].
  - right. cbn [e_peer]. destruct pid as [pid|]; [|left; reflexivity]. right. destruct A as (p & Hp & Est). exists pid, p. repeat split; assumption.
  - left. apply filter_In in Hin. exact (proj1 Hin).
Qed.
Lemma eth_cleanup_to : forall x n n', eth_cleanup n = Ok (x, n') -> Inv n -> To fq n n'.
Proof.
  intros x n n' H I. unfold eth_cleanup in H. apply modn_ok in H. apply to_quiet; [|exact I]. rewrite H. apply steps_one. apply N_eth.
  intros e Hin. left. apply filter_In in Hin. exact (proj1 Hin).
Qed.

Lemma send_all_to : forall source x n n', send_all P source n = Ok (x, n') -> Inv n -> To fa n n'.
Proof.
  intros source x n n' H I. unfold send_all in H. bind H as l m H1. apply gets_ok in H1. destruct H1 as [-> ->].
  eapply each_to; [exact H | exact I|]. intros pid y m m' Hm Im. bind Hm as p m1 H1. apply rd_ok in H1. destruct H1 as [Hf ->].
  destruct (_ || _)%bool; [apply ret_ok in Hm; destruct Hm as [_ ->]; apply to_refl; exact Im|].
  eapply to_mono; [apply fle_fr_fa | eapply protocol_send_to; eassumption].
Qed.
Lemma send_data_to : forall source dest src dst x n n', send_data P source dest src dst n = Ok (x, n') -> Inv n -> To fa n n'.
Proof.
  intros source dest src dst x n n' H I. unfold send_data in H. destruct dest as [d|].
  - eapply to_mono; [apply fle_fr_fa | eapply protocol_send_to; eassumption].
  - destruct (c_tap P); [|eapply send_all_to; eassumption]. bind H as u m H1.
    assert (T1 : To fq n m).
    { destruct source as [s|]; [apply ret_ok in H1; destruct H1 as [_ ->]; apply to_refl; exact I|].
      unfold when in H1. destruct (is_unicast src); [eapply eth_add_to; eassumption | apply ret_ok in H1; destruct H1 as [_ ->]; apply to_refl; exact I]. }
    bind H as l m1 H2. apply gets_ok in H2. destruct H2 as [-> ->].
    assert (T2 : To fa m n').
    { destruct (if is_unicast dst then _ else None) as [e|]; [|eapply send_all_to; [exact H | apply T1]].
      destruct (e_peer e) as [d|]; [|apply ret_ok in H; destruct H as [_ ->]; apply to_refl; apply T1].
      destruct (match source with Some s => N.eqb s d | None => false end); [apply ret_ok in H; destruct H as [_ ->]; apply to_refl; apply T1|].
      eapply to_mono; [apply fle_fr_fa | eapply protocol_send_to; [exact H | apply T1]]. }
    tchain.
Qed.
(** the session a packet was accepted for is still there when it is delivered *)
Definition lv (pid sid : N) (n : node) : Prop := forall p, find_id (n_peers n) pid = Some p -> p_live (n_now n) sid p.
Lemma lv_same : forall pid sid n n', lv pid sid n -> n_peers n' = n_peers n -> n_now n' = n_now n -> lv pid sid n'.
Proof. intros pid sid n n' H E1 E2. unfold lv in *. rewrite E1, E2. exact H. Qed.
Lemma lv_wr : forall pid sid q f x n n', wr q f n = Ok (x, n') -> lv pid sid n -> (forall p, p_id (f p) = p_id p /\ p_old (f p) = p_old p /\ p_sess (f p) = p_sess p) -> lv pid sid n'.
Proof.
  intros pid sid q f x n n' H Hl Hf p' Hp'. apply wr_ok in H. destruct H as (p & Hp & ->). cbn [n_peers set_n_peers n_now] in *.
  rewrite find_id_upd in Hp' by (intros z; apply Hf). destruct (N.eqb_spec pid q) as [E|E]; [|exact (Hl p' Hp')].
  subst q. rewrite Hp in Hp'. injection Hp' as <-. destruct (Hl p Hp) as (s & Hs & X).
  exists s. destruct (Hf p) as (_ & -> & ->). split; assumption.
Qed.
Lemma lv_set : forall pid sid f s x n n', wr pid f n = Ok (x, n') -> (forall p, p_id (f p) = p_id p) ->
  (forall p, p_old (f p) = Some s \/ p_sess (f p) = Some s) -> ss_id s = sid ->
  match ss_state s with MCommon c => n_now n < s_valid_till c | MNull c => n_valid c = true end -> lv pid sid n'.
Proof.
  intros pid sid f s x n n' H Hk Hf Hs Hv p' Hp'. destruct (wr_found _ _ _ _ _ H Hk p' Hp') as (p0 & _ & ->). apply wr_ok in H. destruct H as (p & _ & ->).
  exists s. split; [apply Hf|]. split; [exact Hs | exact Hv].
Qed.
Ltac lvs := repeat match goal with
  | H : wr _ _ ?n = Ok (_, ?n'), L : lv ?p ?s ?n |- _ =>
      lazymatch goal with _ : lv p s n' |- _ => fail | _ => idtac end;
      let X := fresh "Lv" in assert (X : lv p s n') by (apply (lv_wr _ _ _ _ _ _ _ H L); intros z; unsched; repeat split)
  end.
Lemma lv_schedule : forall pid sid q x n n', schedule_peer_task q n = Ok (x, n') -> lv pid sid n -> lv pid sid n'.
Proof. intros pid sid q x n n' H L. unfold schedule_peer_task in H. eapply lv_wr; [exact H | exact L|]. intros z. cbv beta; repeat split; unsched; repeat match goal with |- context [match ?c with _ => _ end] => destruct c end; reflexivity. Qed.
Lemma lv_schedule_handshake : forall pid sid q d x n n', schedule_handshake q d n = Ok (x, n') -> lv pid sid n -> lv pid sid n'.
Proof.
  intros pid sid q d x n n' H L. unfold schedule_handshake, set_next_handshake in H. bind H as u m H1. bind H1 as now m1 H2. apply gets_ok in H2. destruct H2 as [-> ->].
  eapply lv_schedule; [exact H|]. eapply lv_wr; [exact H1 | exact L|]. intros z. repeat split.
Qed.
Lemma lv_orc : forall pid sid n n', (exists l, n' = set_n_orc l n) -> lv pid sid n -> lv pid sid n'.
Proof. intros pid sid n n' [l ->] L. exact L. Qed.
Lemma lv_send_packet : forall pid sid sk dst q o x n n', send_packet sk dst q o n = Ok (x, n') -> lv pid sid n -> lv pid sid n'.
Proof.
  intros pid sid sk dst q o x n n' H L. unfold send_packet in H. destruct sk as [sk|]; [|discriminate]. destruct dst as [a|]; [|discriminate].
  bind H as u m H1. apply use_sock_ok in H1. destruct H1 as [_ ->]. bind H as u2 m2 H2. apply emit_ok in H2.
  assert (L2 : lv pid sid m2) by (rewrite H2; exact L). bind H as r m3 H3. apply flip_same in H3. pose proof (lv_orc _ _ _ _ H3 L2) as L3.
  destruct q as [q|]; [|apply ret_ok in H; destruct H as [_ ->]; exact L3]. unfold when in H. destruct r; [|apply ret_ok in H; destruct H as [_ ->]; exact L3].
  bind H as p m4 H4. apply rd_ok in H4. destruct H4 as [_ ->]. destruct (p_next_hs p); [apply ret_ok in H; destruct H as [_ ->]; exact L3|].
  unfold schedule_handshake_default in H. bind H as d m4 H4. apply rand_same in H4. eapply lv_schedule_handshake; [exact H|]. eapply lv_orc; eassumption.
Qed.
Lemma lv_session_send : forall pid sid x n n', session_send P pid false n = Ok (x, n') ->
  (forall p, find_id (n_peers n) pid = Some p -> exists s, p_sess p = Some s /\ ss_id s = sid /\ match ss_state s with MCommon c => n_now n < s_valid_till c | MNull c => n_valid c = true end) ->
  lv pid sid n'.
Proof.
  intros pid sid x n n' H L. unfold session_send in H. bind H as p m H1. apply rd_ok in H1. destruct H1 as [Hf ->].
  destruct (L p Hf) as (s & Es & Hid & Hv). rewrite Es in H. bind H as failed m H1. apply flip_same in H1. destruct H1 as [l ->].
  assert (L1 : lv pid sid (set_n_orc l n)).
  { intros q Hq. destruct (L q Hq) as (s' & X1 & X2 & X3). exists s'. split; [right; exact X1|]. split; [exact X2 | exact X3]. }
  destruct failed; [apply emit_ok in H; subst n'; exact L1|].
  cbv zeta in H. bind H as u2 m2 H2. apply (lv_set pid sid) with (s := set_ss_state match ss_state s with
             | MCommon c => MCommon (set_send c (increment_nonce (s_send c))) | MNull c => MNull c end s) in H2;
    [|intros z; reflexivity | intros z; right; reflexivity | exact Hid | destruct (ss_state s) as [c|c]; exact Hv].
  bind H as u3 m3 H3. apply (lv_send_packet pid sid) in H3; [|exact H2]. unfold when in H. destruct (negb _); [|apply ret_ok in H; destruct H as [_ ->]; exact H3].
  unfold clear_keepalive in H. bind H as now m4 H4. apply gets_ok in H4. destruct H4 as [-> ->]. eapply lv_wr; [exact H | exact H3|]. intros z. repeat split.
Qed.
Lemma lv_check_session_refresh : forall pid sid x n n', check_session_refresh pid n = Ok (x, n') -> lv pid sid n -> lv pid sid n'.
Proof.
  intros pid sid x n n' H L. unfold check_session_refresh in H. bind H as p m H1. apply rd_ok in H1. destruct H1 as [Hf ->].
  bind H as now m H1. apply gets_ok in H1. destruct H1 as [-> ->]. destruct (p_sess p) as [s|] eqn:Es; [|discriminate].
  unfold when in H. destruct (_ && _)%bool; [|apply ret_ok in H; destruct H as [_ ->]; exact L]. bind H as u m H1.
  eapply lv_schedule_handshake; [exact H|]. intros q Hq. destruct (wr_found _ _ _ _ _ H1 ltac:(intros z; reflexivity) q Hq) as (q0 & Hq0 & ->).
  rewrite Hf in Hq0. injection Hq0 as <-. apply wr_ok in H1. destruct H1 as (p2 & _ & ->). destruct (L p Hf) as (s2 & Hs2 & Hid & Hv).
  destruct Hs2 as [Hs2 | Hs2]; [exists s2; split; [left; exact Hs2 | split; assumption]|].
  rewrite Es in Hs2. injection Hs2 as <-. exists (set_ss_flags true true s). split; [right; reflexivity|]. split; assumption.
Qed.
Lemma lv_eth_add : forall pid sid q a x n n', eth_add q a n = Ok (x, n') -> lv pid sid n -> lv pid sid n'.
Proof.
  intros pid sid q a x n n' H L. unfold eth_add in H. bind H as ok m H1.
  assert (m = n) by (destruct q; [bind H1 as p m1 H2; apply rd_ok in H2; destruct H2 as [_ ->]|]; apply ret_ok in H1; exact (proj2 H1)). subst m.
  destruct (negb ok); [discriminate|]. apply modn_ok in H. subst n'. exact L.
Qed.

Lemma handle_receive_to : forall pid sid src dst x n n', handle_receive P pid sid src dst n = Ok (x, n') -> Inv n -> lv pid sid n -> To (fx pid) n n'.
Proof.
  intros pid sid src dst x n n' H I L. unfold handle_receive in H. bind H as p m H1. apply rd_ok in H1. destruct H1 as [Hf ->].
  destruct (negb _); [apply ret_ok in H; destruct H as [_ ->]; apply to_refl; exact I|].
  bind H as u m H1. assert (T1 : To fq n m).
  { unfold when in H1. destruct (_ && _)%bool; [eapply eth_add_to; eassumption | apply ret_ok in H1; destruct H1 as [_ ->]; apply to_refl; exact I]. }
  assert (L1 : lv pid sid m).
  { unfold when in H1. destruct (_ && _)%bool; [eapply lv_eth_add; eassumption | apply ret_ok in H1; destruct H1 as [_ ->]; exact L]. }
  assert (F1 : find_id (n_peers m) pid = Some p).
  { unfold when in H1. destruct (_ && _)%bool; [|apply ret_ok in H1; destruct H1 as [_ ->]; exact Hf]. unfold eth_add in H1. bind H1 as ok m1 H2.
    bind H2 as p1 m2 H3. apply rd_ok in H3. destruct H3 as [_ ->]. apply ret_ok in H2. destruct H2 as [_ ->]. destruct (negb ok); [discriminate|].
    apply modn_ok in H1. subst m. exact Hf. }
  bind H as u2 m2 H2. apply emit_ok in H2.
  assert (T2 : To (fv pid) m m2).
  { apply to_still; [|split; reflexivity | reflexivity | apply T1]. rewrite H2. apply steps_one. apply N_deliver with p; [apply N.eqb_refl | exact F1 | exact (L1 p F1)]. }
  clear H2. rename T2 into H2.
  assert (T3 : To fa m2 n').
  { unfold when in H. destruct (c_tap P && c_forward P)%bool; [eapply send_data_to; [exact H | apply H2] | apply ret_ok in H; destruct H as [_ ->]; apply to_refl; apply H2]. }
  tchain.
Qed.

Lemma common_valid_till : forall now c, m_valid now (MCommon c) = true -> now < s_valid_till c.
Proof. intros now c H. cbn [m_valid] in H. unfold common_is_valid, timed_out in H. destruct (_ && _)%bool in H; [discriminate | lia]. Qed.
Lemma m_decrypt_valid : forall now m auth nonce st fresh, m_decrypt now m auth nonce = Ok (Some (st, fresh)) ->
  m_valid now st = m_valid now m /\ m_initiator st = m_initiator m /\
  match st, m with MCommon c, MCommon c' => s_valid_till c = s_valid_till c' /\ s_send c = s_send c' | MNull a, MNull b => a = b | _, _ => False end.
Proof.
  intros now m auth nonce st fresh H. unfold m_decrypt in H. destruct m as [s|s].
  - destruct (is_nonce_valid now s nonce) as [age|]; [|discriminate]. destruct (_ || _)%bool; [discriminate|].
    destruct (reorder_check now s nonce age) as [| ? | ? |] eqn:E; try discriminate; injection H as <- <-; try (repeat split);
    unfold reorder_check in E; destruct (age <? 0);
    repeat match type of E with
    | (if ?b then _ else _) = _ => destruct b; try discriminate
    | match ?b with _ => _ end = _ => destruct b; try discriminate
    end; try discriminate; injection E as <-; repeat split.
  - destruct auth; [|discriminate]. injection H as <- <-. repeat split.
Qed.

Lemma handle_recv_to : forall pid nonce x n n', handle_recv P pid nonce n = Ok (x, n') -> Inv n -> To (fx pid) n n'.
Proof.
  intros pid nonce x n n' H I. unfold handle_recv in H.
  bind H as ok m H1. pose proof (check_session_to _ _ _ _ H1 I) as (T1 & Hok & _).
  destruct ok; cbn [negb] in H; [|apply ret_ok in H; destruct H as [_ ->]; tchain].
  destruct (Hok eq_refl) as (-> & p0 & Hf0 & Hv). clear T1 H1 Hok.
  bind H as p m H1. apply rd_ok in H1. destruct H1 as [Hf ->]. rewrite Hf in Hf0. injection Hf0 as <-.
  bind H as now m H1. apply gets_ok in H1. destruct H1 as [-> ->].
  bind H as a1 m1 H1. pose proof (flip_to _ _ _ H1 I) as T1. apply flip_same in H1. destruct H1 as [l1 ->].
  bind H as a2 m2 H2. pose proof (flip_to _ _ _ H2 (proj2 T1)) as T2. apply flip_same in H2. destruct H2 as [l2 ->].
  assert (T12 : To fq n (set_n_orc l2 (set_n_orc l1 n))) by tchain. clear T1 T2.
  revert T12 H. generalize (eq_refl : n_peers (set_n_orc l2 (set_n_orc l1 n)) = n_peers n). generalize (eq_refl : n_now (set_n_orc l2 (set_n_orc l1 n)) = n_now n).
  generalize (set_n_orc l2 (set_n_orc l1 n)) as m. intros m Enow Epeers T12 H.
  bind H as r m3 H3.
  assert (A : To fq m m3 /\ n_now m3 = n_now m /\ (r = None -> m3 = m) /\ (forall y, r = Some y -> lv pid (fst y) m3)).
  { destruct (p_old p) as [o|] eqn:Eo; [|apply ret_ok in H3; destruct H3 as [<- ->]; split; [apply to_refl; apply T12 | split; [reflexivity | split; [trivial | discriminate]]]].
    destruct (m_valid (n_now n) (ss_state o)) eqn:Ev; [|apply ret_ok in H3; destruct H3 as [<- ->]; split; [apply to_refl; apply T12 | split; [reflexivity | split; [trivial | discriminate]]]].
    bind H3 as d m4 H4. apply lift_ok in H4. destruct H4 as [Ed ->].
    destruct d as [[st fresh]|]; [|apply ret_ok in H3; destruct H3 as [<- ->]; split; [apply to_refl; apply T12 | split; [reflexivity | split; [trivial | discriminate]]]].
    bind H3 as u m4 H4. apply ret_ok in H3. destruct H3 as [<- ->]. destruct (m_decrypt_valid _ _ _ _ _ _ Ed) as (_ & _ & Evt).
    split; [|split; [apply wr_ok in H4; destruct H4 as (q & _ & ->); reflexivity | split; [discriminate|]]].
    2:{ intros y Ey. injection Ey as <-. cbn [fst]. eapply lv_set; [exact H4 | intros z; reflexivity | intros z; left; reflexivity | reflexivity|].
        cbn [ss_state set_ss_state]. destruct st as [c|c]; (destruct (ss_state o) as [c'|c']; [|]); try contradiction; [|subst c'; exact Ev].
        destruct Evt as [-> _]. rewrite Enow. exact (common_valid_till _ _ Ev). }
    eapply wr_to; [exact H4 | apply T12|]. intros q Hq. rewrite Epeers, Hf in Hq. injection Hq as <-. rewrite <- Enow in *.
    eapply ps_recv_old; [exact Eo | exact Ev | exact Ed]. }
  destruct A as (T3 & Enow3 & Hnone & Hlv).
  bind H as r2 m4 H4.
  assert (A4 : To fq m3 m4 /\ (forall y, r2 = Some y -> lv pid (fst y) m4)).
  { destruct r as [y|]; [apply ret_ok in H4; destruct H4 as [<- ->]; split; [apply to_refl; apply T3 | intros y' Ey; apply Hlv; exact Ey]|].
    specialize (Hnone eq_refl). subst m3. clear T3.
    destruct (p_sess p) as [s|] eqn:Es; [|discriminate]. unfold sess_valid in Hv.
    bind H4 as d m5 H5. apply lift_ok in H5. destruct H5 as [Ed ->].
    destruct d as [[st fresh]|]; [|apply ret_ok in H4; destruct H4 as [<- ->]; split; [apply to_refl; apply T12 | discriminate]]. cbv zeta in H4.
    destruct (m_decrypt_valid _ _ _ _ _ _ Ed) as (Ev2 & _ & Evt).
    assert (Hvt : match st with MCommon c => n_now m < s_valid_till c | MNull c => n_valid c = true end).
    { destruct st as [c|c]; (destruct (ss_state s) as [c'|c']; [|]); try contradiction; [|subst c'; exact Hv]. destruct Evt as [-> _].
      rewrite Enow. exact (common_valid_till _ _ Hv). }
    bind H4 as u m5 H5.
    assert (F5 : forall q, find_id (n_peers m5) pid = Some q -> p_sess q = Some (set_ss_state st s)).
    { intros q Hq. destruct (wr_found _ _ _ _ _ H5 ltac:(intros y; reflexivity) q Hq) as (q0 & _ & ->). reflexivity. }
    assert (N5 : n_now m5 = n_now m) by (apply wr_ok in H5; destruct H5 as (q & _ & ->); reflexivity).
    apply wr_to in H5; [|apply T12|intros q Hq; rewrite Epeers, Hf in Hq; injection Hq as <-; rewrite <- Enow in *; eapply ps_recv; [exact Es | exact Hv | exact Ed]].
    bind H4 as u6 m6 H6.
    assert (A6 : To fq m5 m6 /\ lv pid (ss_id s) m6).
    { unfold when in H6. destruct (negb _); [|apply ret_ok in H6; destruct H6 as [_ ->]; split; [apply to_refl; apply H5|]].
      2:{ intros q Hq. eexists. split; [right; exact (F5 q Hq)|]. split; [reflexivity | rewrite N5; exact Hvt]. }
      bind H6 as u7 m7 H7.
      assert (F7 : forall q, find_id (n_peers m7) pid = Some q -> p_sess q = Some (set_ss_flags true (ss_refreshing (set_ss_state st s)) (set_ss_state st s))).
      { intros q Hq. destruct (wr_found _ _ _ _ _ H7 ltac:(intros y; reflexivity) q Hq) as (q0 & _ & ->). reflexivity. }
      assert (N7 : n_now m7 = n_now m5) by (apply wr_ok in H7; destruct H7 as (q & _ & ->); reflexivity).
      apply wr_to in H7; [|apply H5|intros q Hq; apply ps_cleaned; exact (F5 q Hq)].
      destruct (m_initiator _); [|apply ret_ok in H6; destruct H6 as [_ ->]; split; [exact H7|]].
      2:{ intros q Hq. eexists. split; [right; exact (F7 q Hq)|]. split; [reflexivity | rewrite N7, N5; exact Hvt]. }
      split; [|eapply lv_session_send; [exact H6|]; intros q Hq; eexists; split; [exact (F7 q Hq)|]; split; [reflexivity | rewrite N7, N5; exact Hvt]].
      eapply to_trans; [exact H7|]. eapply session_send_to; [exact H6 | apply H7|]. intros q sq Hq Hsq. rewrite (F7 q Hq) in Hsq. injection Hsq as <-.
      cbn [ss_state set_ss_flags set_ss_state]. rewrite N7, N5, Enow, Ev2. exact Hv. }
    destruct A6 as [T6 L6]. bind H4 as u7 m7 H7. apply ret_ok in H4. destruct H4 as [<- ->]. pose proof (lv_check_session_refresh _ _ _ _ _ H7 L6) as L7.
    apply check_session_refresh_to in H7; [|apply T6]. split; [tchain | intros y Ey; injection Ey as <-; exact L7]. }
  destruct A4 as [T4 L4].
  destruct r2 as [[sid fresh]|]; [|apply ret_ok in H; destruct H as [_ ->]; tchain].
  specialize (L4 _ eq_refl). cbn [fst] in L4. bind H as u5 m5 H5.
  bind H as u6 m6 H6.
  assert (L6 : lv pid sid m6).
  { apply emit_ok in H5. unfold peer_seen in H6. bind H6 as now m6' H7. apply gets_ok in H7. destruct H7 as [-> ->].
    eapply lv_wr; [exact H6 | rewrite H5; exact L4 | intros z; repeat split]. }
  pose proof (seen_to _ _ _ _ _ _ H5 H6 (proj2 T4)) as T6. clear H5 H6. rename T6 into H6.
  bind H as b7 m7 H7. pose proof (lv_orc _ _ _ _ (flip_same _ _ _ H7) L6) as L7. apply flip_to in H7; [|apply H6].
  bind H as s8 m8 H8. pose proof (lv_orc _ _ _ _ (pop_same _ _ _ H8) L7) as L8. apply pop_to in H8; [|apply H7].
  bind H as d9 m9 H9. pose proof (lv_orc _ _ _ _ (pop_same _ _ _ H9) L8) as L9. apply pop_to in H9; [|apply H8].
  assert (T10 : To (fx pid) m9 n').
  { unfold when in H. destruct (fresh && b7)%bool; [eapply handle_receive_to; [exact H | apply H9 | exact L9] | apply ret_ok in H; destruct H as [_ ->]; apply to_refl; apply H9]. }
  tchain.
Qed.

(** ** Timers *)
Lemma send_handshake_to : forall pid ri x n n', send_handshake P pid ri n = Ok (x, n') -> Inv n -> en pid n -> To fc n n'.
Proof.
  intros pid ri x n n' H I He. unfold send_handshake in H. bind H as p m H1. apply rd_ok in H1. destruct H1 as [Hf ->].
  bind H as go m H1.
  assert (T1 : To fc n m).
  { destruct (negb _); [|apply ret_ok in H1; destruct H1 as [_ ->]; apply to_refl; exact I].
    destruct ri as [i|]; [|discriminate]. bind H1 as r m1 H2. apply rd_remote_ok in H2. destruct H2 as [-> _].
    destruct (r_addrs r) as [|a0 l]; [apply ret_ok in H1; destruct H1 as [_ ->]; apply to_refl; exact I|].
    destruct (nth_error (a0 :: l) (r_cur r)) as [a|]; [|discriminate].
    bind H1 as b m1 H2. apply claim_address_to with (ev := ev) in H2; [|exact I | exact He]. destruct H2 as [T2 _].
    bind H1 as u m2 H3. apply ret_ok in H1. destruct H1 as [_ ->].
    apply reset_socket_to in H3; [|apply T2 | eapply act_en; [apply T2 | eapply to_en; [exact T2 | reflexivity | exact I | exact He]]].
    tchain. }
  pose proof (to_en _ _ _ _ _ pid T1 eq_refl I He) as He1.
  destruct go; cbn [negb] in H; [|apply ret_ok in H; destruct H as [_ ->]; exact T1].
  bind H as p1 m1 H2. apply rd_ok in H2. destruct H2 as [Hf1 ->].
  bind H as now m1 H2. apply gets_ok in H2. destruct H2 as [-> ->].
  destruct (p_sock p1) as [sk|]; [|apply ret_ok in H; destruct H as [_ ->]; exact T1].
  destruct (p_addr p1) as [a|]; [|apply ret_ok in H; destruct H as [_ ->]; exact T1].
  destruct (_ && _)%bool; [apply ret_ok in H; destruct H as [_ ->]; exact T1|].
  bind H as u m2 H2. apply wr_to in H2; [|apply T1 | intros q Hq; apply ps_timer'; cbv beta;
    exists (p_next_hs q), (p_next_remote q), (n_now m + MIN_HANDSHAKE_INTERVAL), (p_addr q), (p_iface q); destruct q; reflexivity].
  bind H as u3 m3 H3. apply ret_ok in H. destruct H as [_ ->].
  apply handshake_init_to in H3; [|apply H2 | eapply act_en; [apply H2 | eapply to_en; [exact H2 | reflexivity | apply T1 | exact He1]]].
  tchain.
Qed.

Lemma task_handshake_next_to : forall pid x n n', task_handshake_next P pid n = Ok (x, n') -> Inv n -> To fq n n'.
Proof.
  intros pid x n n' H I. unfold task_handshake_next in H. bind H as u m H1.
  apply wr_to in H1; [|exact I | intros q Hq; destruct (p_next_remote q) as [i|]; [destruct (Nat.ltb _ _)|]; timer].
  bind H as p m1 H2. apply rd_ok in H2. destruct H2 as [Hf ->]. destruct (p_next_remote p) as [i|]; [|discriminate].
  bind H as r m1 H2. apply rd_remote_ok in H2. destruct H2 as [-> _].
  bind H as u2 m2 H2. apply remote_to in H2; [|apply H1 | intros y; reflexivity].
  assert (T3 : To fq m2 n').
  { destruct (r_host r); [eapply resolve_peer_to; [exact H | apply H2] | apply ret_ok in H; destruct H as [_ ->]; apply to_refl; apply H2]. }
  tchain.
Qed.

Lemma task_handshake_to : forall pid x n n', task_handshake P pid n = Ok (x, n') -> Inv n -> en pid n -> To fc n n'.
Proof.
  intros pid x n n' H I He. unfold task_handshake in H.
  bind H as d m H1. apply default_rand_to in H1; [|exact I].
  bind H as u m2 H2. apply set_next_handshake_to in H2; [|apply H1].
  bind H as p m3 H3. apply rd_ok in H3. destruct H3 as [Hf ->].
  bind H as l m3 H3. apply gets_ok in H3. destruct H3 as [-> ->].
  assert (He2 : en pid m2).
  { eapply to_en; [exact H2 | reflexivity | apply H1 |]. eapply to_en; [exact H1 | reflexivity | exact I | exact He]. }
  destruct (negb _).
  { apply wr_to in H; [tchain | apply H2 | intros q Hq; timer]. }
  assert (Hmain : forall ri, (send_handshake P pid ri ;;
        p <- rd pid ;;
        if is_established p then ret tt
        else
          wr pid (set_p_state Handshaking) ;;
          match ri with
          | None => undefined
          | Some i =>
              r <- rd_remote pid i ;;
              wr pid (set_remote i (set_r_cur (S (r_cur r)))) ;;
              if Nat.ltb (S (r_cur r)) (length (r_addrs r)) then ret tt
              else
                wr pid (fun p => set_p_next_remote (match p_next_remote p with Some i => Some (S i) | None => Some 0%nat end) p) ;;
                task_handshake_next P pid
          end) m2 = Ok (x, n') -> To fc n n').
  { clear H. intros ri H. bind H as b m3 H3. apply send_handshake_to in H3; [|apply H2 | exact He2].
    pose proof (to_en _ _ _ _ _ pid H3 eq_refl (proj2 H2) He2) as He3.
    bind H as p4 m4 H4. apply rd_ok in H4. destruct H4 as [Hf4 ->].
    destruct (is_established p4) eqn:Est; [apply ret_ok in H; destruct H as [_ ->]; tchain|].
    bind H as u5 m5 H5. apply wr_to in H5; [|apply H3|].
    2:{ intros q Hq. rewrite Hf4 in Hq. injection Hq as <-. apply ps_state; [exact Est | discriminate | discriminate | exact (He3 p4 Hf4)]. }
    destruct ri as [i|]; [|discriminate].
    bind H as r m6 H6. apply rd_remote_ok in H6. destruct H6 as [-> _].
    bind H as u6 m6 H6. apply remote_to in H6; [|apply H5 | intros y; reflexivity].
    destruct (Nat.ltb _ _); [apply ret_ok in H; destruct H as [_ ->]; tchain|].
    bind H as u7 m7 H7. apply wr_to in H7; [|apply H6 | intros q Hq; timer].
    apply task_handshake_next_to in H; [|apply H7]. tchain. }
  destruct (p_next_remote p) as [i|]; [apply (Hmain (Some i)); destruct (is_established p); exact H|].
  destruct (is_established p); [apply (Hmain None); exact H|].
  apply task_handshake_next_to in H; [|apply H2]. tchain.
Qed.

Lemma handle_task_to : forall pid x n n', handle_task P pid n = Ok (x, n') -> Inv n -> en pid n -> To (ft pid) n n'.
Proof.
  intros pid x n n' H I He. unfold handle_task in H.
  bind H as u m H1.
  assert (T1 : To (fk pid) n m).
  { apply to_still; [|split; reflexivity | reflexivity | exact I]. eapply wr_steps; [exact H1|]. intros q Hq. apply ps_untask.
    cbn. rewrite (proj2 (find_id_in _ _ _ Hq)). apply N.eqb_refl. }
  clear H1. rename T1 into H1.
  pose proof (to_en _ _ _ _ _ pid H1 eq_refl I He) as He1.
  bind H as p m2 H2. apply rd_ok in H2. destruct H2 as [Hf ->].
  bind H as now m2 H2. apply gets_ok in H2. destruct H2 as [-> ->].
  destruct (otimed_out _ _).
  { destruct (is_dynamic p) eqn:Ed.
    - apply peer_delete_to with (ev := ev) in H; [|apply H1 | intros q Hq; rewrite Hf in Hq; injection Hq as <-; exact Ed]. tchain.
    - apply peer_reset_to with (ev := ev) in H; [|apply H1]. tchain. }
  bind H as u3 m3 H3.
  assert (T3 : To fc m m3).
  { unfold when in H3. destruct (otimed_out _ _); [|apply ret_ok in H3; destruct H3 as [_ ->]; apply to_refl; apply H1].
    bind H3 as u4 m4 H4. apply protocol_send_to in H4; [|apply H1]. destruct H4 as [H4 S4]. apply clear_keepalive_to in H3; [|apply H4 | exact S4]. tchain. }
  pose proof (to_en _ _ _ _ _ pid T3 eq_refl (proj2 H1) He1) as He3.
  bind H as p4 m4 H4. apply rd_ok in H4. destruct H4 as [Hf4 ->].
  bind H as u5 m5 H5.
  assert (T5 : To fc m3 m5).
  { unfold when in H5. destruct (otimed_out (n_now m) (p_next_hs p4)); [eapply task_handshake_to; [exact H5 | apply T3 | exact He3] | apply ret_ok in H5; destruct H5 as [_ ->]; apply to_refl; apply T3]. }
  pose proof (to_en _ _ _ _ _ pid T5 eq_refl (proj2 T3) He3) as He5.
  apply schedule_peer_task_to in H; [|apply T5 | eapply act_en; [apply T5 | exact He5]]. tchain.
Qed.

Lemma resolve_return_to : forall pid i addrs x n n', resolve_return P pid i addrs n = Ok (x, n') -> Inv n -> To fq n n'.
Proof.
  intros pid i addrs x n n' H I. unfold resolve_return in H. bind H as l m H1. apply gets_ok in H1. destruct H1 as [-> ->].
  destruct (find_id (n_peers n) pid) as [p|] eqn:Hf; [|apply ret_ok in H; destruct H as [_ ->]; apply to_refl; exact I].
  destruct (is_enabled p) eqn:Een; cbn [negb] in H; [|apply ret_ok in H; destruct H as [_ ->]; apply to_refl; exact I].
  destruct (is_dynamic p); [discriminate|].
  bind H as r m1 H2. apply rd_remote_ok in H2. destruct H2 as [-> _].
  bind H as u2 m2 H2. pose proof (remote_trk _ _ _ _ _ _ H2) as Tk. apply remote_to in H2; [|exact I | intros y; reflexivity].
  destruct (p_state p) eqn:Es; try (apply ret_ok in H; destruct H as [_ ->]; exact H2).
  eapply (init_handshake_steps P ev fq) in H.
  - destruct H as [S _]. apply to_quiet with (fl := fq) in S; [|apply H2]. tchain.
  - intros q Hq. destruct (Tk q Hq) as (q0 & Hq0 & E1 & E2). rewrite Hf in Hq0. injection Hq0 as <-.
    unfold is_established, is_enabled in *. rewrite E1, E2, Es. split; [reflexivity | exact Een].
Qed.

End Fun.
