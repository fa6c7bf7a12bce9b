(** Proofs about the status socket, part 2: which session is used for sending *)
From Verif Require Import Base BaseLemmas BufferModel NonceModel MethodModel HandshakeModel
  NodeModel NodeSteps NodeWf NodeInv NodeFun NodeSpec NodeProofs NodeProofs2 NodeProofs3 StatusModel.
From Coq Require Import Lia ZifyBool ZifyNat ZifyN.
Local Open Scope Z_scope.

(** Computations that send no payload packets *)
Definition nodata (n n' : node) : Prop :=
  exists l, n_out n' = l ++ n_out n /\ forall t a b c d, ~ In (t, OData a b c d) l.
Lemma nodata_refl : forall n, nodata n n.
Proof. intros n. exists []. split; [reflexivity|]. intros t a b c d []. Qed.
Lemma nodata_trans : forall n m n', nodata n m -> nodata m n' -> nodata n n'.
Proof.
  intros n m n' (l & A & B) (l' & A' & B'). exists (l' ++ l). split; [rewrite A', A, app_assoc; reflexivity|].
  intros t a b c d H. apply in_app_or in H. destruct H as [H|H]; [exact (B' _ _ _ _ _ H) | exact (B _ _ _ _ _ H)].
Qed.
Lemma nodata_same : forall n n', n_out n' = n_out n -> nodata n n'.
Proof. intros n n' H. exists []. split; [exact H|]. intros t a b c d []. Qed.
Lemma nodata_wr : forall q f x n n', wr q f n = Ok (x, n') -> nodata n n'.
Proof. intros q f x n n' H. apply wr_ok in H. destruct H as (p & _ & ->). apply nodata_same. reflexivity. Qed.
Lemma nodata_emit : forall o x n n', emit o n = Ok (x, n') -> (forall a b c d, o <> OData a b c d) -> nodata n n'.
Proof.
  intros o x n n' H Ho. apply emit_ok in H. subst n'. exists [(n_now n, o)]. split; [reflexivity|]. intros t a b c d [E|[]].
  injection E as _ E. exact (Ho _ _ _ _ E).
Qed.
Lemma nodata_orc : forall n n', (exists l, n' = set_n_orc l n) -> nodata n n'.
Proof. intros n n' [l ->]. apply nodata_same. reflexivity. Qed.
Lemma nodata_flip : forall x n n', flip n = Ok (x, n') -> nodata n n'.
Proof. intros x n n' H. apply nodata_orc. eapply flip_same. exact H. Qed.
Lemma nodata_pop : forall x n n', pop n = Ok (x, n') -> nodata n n'.
Proof. intros x n n' H. apply nodata_orc. eapply pop_same. exact H. Qed.
Lemma nodata_rand : forall lo hi x n n', rand lo hi n = Ok (x, n') -> nodata n n'.
Proof. intros lo hi x n n' H. apply nodata_orc. eapply rand_same. exact H. Qed.
Lemma nodata_default_rand : forall x n n', handshake_default_rand n = Ok (x, n') -> nodata n n'.
Proof. intros x n n' H. apply nodata_orc. eapply default_rand_same. exact H. Qed.
Create HintDb nodata.
#[global] Hint Resolve nodata_flip nodata_pop nodata_rand nodata_default_rand nodata_wr : nodata.
Ltac de := eapply nodata_emit; [eassumption | discriminate].
Ltac dm := match goal with H : modn _ _ = Ok _ |- _ => apply modn_ok in H; subst; apply nodata_same; reflexivity end.
Ltac dchain :=
  repeat match goal with
  | |- nodata ?n ?n => apply nodata_refl
  | H : _ ?n = Ok (_, ?m) |- nodata ?n _ =>
      apply (nodata_trans n m); [solve [eauto 4 with nodata | de | dm] |]; clear H
  end.
Lemma nodata_schedule_peer_task : forall q x n n', schedule_peer_task q n = Ok (x, n') -> nodata n n'.
Proof. intros q x n n' H. unfold schedule_peer_task in H. eauto with nodata. Qed.
#[global] Hint Resolve nodata_schedule_peer_task : nodata.
Lemma nodata_set_next_handshake : forall q d x n n', set_next_handshake q d n = Ok (x, n') -> nodata n n'.
Proof. intros q d x n n' H. unfold set_next_handshake in H. minv. eauto with nodata. Qed.
#[global] Hint Resolve nodata_set_next_handshake : nodata.
Lemma nodata_schedule_handshake : forall q d x n n', schedule_handshake q d n = Ok (x, n') -> nodata n n'.
Proof. intros q d x n n' H. unfold schedule_handshake in H. minv. dchain. Qed.
#[global] Hint Resolve nodata_schedule_handshake : nodata.
Lemma nodata_schedule_handshake_default : forall q x n n', schedule_handshake_default q n = Ok (x, n') -> nodata n n'.
Proof. intros q x n n' H. unfold schedule_handshake_default in H. minv. dchain. Qed.
#[global] Hint Resolve nodata_schedule_handshake_default : nodata.
Lemma nodata_clear_keepalive : forall q x n n', clear_keepalive q n = Ok (x, n') -> nodata n n'.
Proof. intros q x n n' H. unfold clear_keepalive in H. minv. eauto with nodata. Qed.
#[global] Hint Resolve nodata_clear_keepalive : nodata.
Lemma nodata_free_socket : forall q x n n', free_socket q n = Ok (x, n') -> nodata n n'.
Proof. intros q x n n' H. unfold free_socket in H. minv; dchain. Qed.
#[global] Hint Resolve nodata_free_socket : nodata.
Lemma nodata_reset_socket : forall q x n n', reset_socket q n = Ok (x, n') -> nodata n n'.
Proof. intros q x n n' H. unfold reset_socket in H. minv; dchain. Qed.
#[global] Hint Resolve nodata_reset_socket : nodata.
Lemma nodata_init_handshake : forall P q x n n', init_handshake P q n = Ok (x, n') -> nodata n n'.
Proof. intros P q x n n' H. unfold init_handshake in H. minv; dchain. Qed.
#[global] Hint Resolve nodata_init_handshake : nodata.
Lemma nodata_rd_remote : forall q i x n n', rd_remote q i n = Ok (x, n') -> nodata n n'.
Proof. intros q i x n n' H. apply rd_remote_ok in H. destruct H as [-> _]. apply nodata_refl. Qed.
#[global] Hint Resolve nodata_rd_remote : nodata.
Lemma nodata_resolve_peer : forall q i x n n', resolve_peer q i n = Ok (x, n') -> nodata n n'.
Proof. intros q i x n n' H. unfold resolve_peer in H. minv; dchain. Qed.
#[global] Hint Resolve nodata_resolve_peer : nodata.
Lemma nodata_setup_peer : forall P q x n n', setup_peer P q n = Ok (x, n') -> nodata n n'.
Proof.
  intros P q x n n' H. unfold setup_peer in H.
  bind H as now m H1. apply gets_ok in H1. destruct H1 as [-> ->].
  bind H as u m1 H1. apply nodata_wr in H1. apply (nodata_trans _ _ _ H1). clear H1.
  minv; dchain.
Qed.
#[global] Hint Resolve nodata_setup_peer : nodata.
Lemma nodata_reset_peer : forall P q x n n', reset_peer P q n = Ok (x, n') -> nodata n n'.
Proof.
  intros P q x n n' H. apply reset_peer_ok in H. destruct H as (p & f & _ & _ & _ & ->). destruct (is_established p).
  - exists [(n_now n, ODown q)]. split; [reflexivity|]. intros t a b c d [X|[]]. discriminate.
  - exists []. split; [reflexivity|]. intros t a b c d [].
Qed.
#[global] Hint Resolve nodata_reset_peer : nodata.
Lemma nodata_peer_reset : forall P q x n n', peer_reset P q n = Ok (x, n') -> nodata n n'.
Proof.
  intros P q x n n' H. unfold peer_reset in H. bind H as p m H1. apply rd_ok in H1. destruct H1 as [_ ->]. bind H as u m1 H1.
  apply nodata_setup_peer in H. apply nodata_trans with m1; [|exact H]. destruct (p_state p); minv; dchain.
Qed.
#[global] Hint Resolve nodata_peer_reset : nodata.

Lemma nodata_not : forall n n' t a b c d, nodata n n' -> newly n n' t (OData a b c d) -> False.
Proof.
  intros n n' t a b c d (l & E & Hn) (l' & E' & Hin). rewrite E in E'. apply app_inv_tail in E'. subst l'. exact (Hn _ _ _ _ _ Hin).
Qed.

(** What sending depends on *)
Definition same_sessions (p p' : peer) : Prop :=
  p_old p' = p_old p /\
  match p_sess p, p_sess p' with
  | Some s, Some s' => ss_id s' = ss_id s /\ ss_state s' = ss_state s /\ ss_method s' = ss_method s
  | None, None => True
  | _, _ => False
  end.
Lemma same_refl : forall p, same_sessions p p.
Proof. intros p. split; [reflexivity|]. destruct (p_sess p); auto. Qed.

Lemma wr_same : forall pid f x n n' p, wr pid f n = Ok (x, n') -> find_id (n_peers n) pid = Some p -> keeps_id f -> same_sessions p (f p) ->
  n_now n' = n_now n /\ exists p', find_id (n_peers n') pid = Some p' /\ same_sessions p p'.
Proof.
  intros pid f x n n' p H Hf Hk Hs. apply wr_ok in H. destruct H as (p0 & _ & ->). split; [reflexivity|]. exists (f p). split; [|exact Hs].
  cbn [n_peers set_n_peers]. apply find_id_upd_same; assumption.
Qed.
Lemma same_trans : forall p q r, same_sessions p q -> same_sessions q r -> same_sessions p r.
Proof.
  intros p q r [A B] [A' B']. split; [congruence|]. destruct (p_sess p) as [s|], (p_sess q) as [s'|], (p_sess r) as [s''|]; try contradiction; [|exact Logic.I].
  destruct B as (B1 & B2 & B3), B' as (B1' & B2' & B3'). repeat split; congruence.
Qed.
Lemma refresh_keeps : forall pid x n n' p, check_session_refresh pid n = Ok (x, n') -> find_id (n_peers n) pid = Some p ->
  nodata n n' /\ n_now n' = n_now n /\ exists p', find_id (n_peers n') pid = Some p' /\ same_sessions p p'.
Proof.
  intros pid x n n' p H Hf. split.
  - unfold check_session_refresh in H. minv; dchain.
  - unfold check_session_refresh in H. bind H as p0 m H1. apply rd_ok in H1. destruct H1 as [Hf0 ->]. rewrite Hf in Hf0. injection Hf0 as <-.
    bind H as now m H1. apply gets_ok in H1. destruct H1 as [-> ->]. destruct (p_sess p) as [s|] eqn:Es; [|discriminate].
    destruct (negb (ss_refreshing s) && m_want_refresh (n_now n) (ss_state s))%bool; cbn [when] in H.
    2:{ apply ret_ok in H. destruct H as [_ ->]. split; [reflexivity|]. exists p. split; [exact Hf | apply same_refl]. }
    bind H as u m H1. eapply wr_same in H1; [|exact Hf | intros q; reflexivity | split; [reflexivity|]; cbn [p_sess set_p_sess]; rewrite Es; repeat split; destruct s; reflexivity].
    destruct H1 as (T1 & p1 & Hf1 & S1).
    unfold schedule_handshake in H. bind H as u1 m1 H1. unfold set_next_handshake in H1. bind H1 as now m2 H2. apply gets_ok in H2. destruct H2 as [-> ->].
    eapply wr_same in H1; [|exact Hf1 | intros q; reflexivity | split; [reflexivity|]; cbn [p_sess set_p_next_hs]; destruct (p_sess p1); repeat split].
    destruct H1 as (T2 & p2 & Hf2 & S2).
    unfold schedule_peer_task in H.
    eapply wr_same in H; [|exact Hf2 | |].
    + destruct H as (T3 & p3 & Hf3 & S3). split; [congruence|]. exists p3. split; [exact Hf3|]. eapply same_trans; [exact S1|]. eapply same_trans; eassumption.
    + intros q. destruct (omin _ _); [destruct (p_task q) as [t'|]; [destruct (_ <? _)|]|]; reflexivity.
    + destruct (omin _ _); [destruct (p_task p2) as [t'|]; [destruct (_ <? _)|]|]; (split; [reflexivity|]; cbn [p_sess set_p_task]; destruct (p_sess p2); repeat split).
Qed.

Lemma send_used : forall P pid old x n n' p s, session_send P pid old n = Ok (x, n') -> find_id (n_peers n) pid = Some p ->
  (if old then p_old p else p_sess p) = Some s ->
  exists l, n_out n' = l ++ n_out n /\ forall t sid nonce dst, In (t, OData pid sid nonce dst) l -> sid = ss_id s.
Proof.
  intros P pid old x n n' p s H Hf Hs. unfold session_send in H. bind H as p0 m H1. apply rd_ok in H1. destruct H1 as [Hf0 ->].
  rewrite Hf in Hf0. injection Hf0 as <-. rewrite Hs in H. bind H as failed m H1. pose proof (nodata_flip _ _ _ H1) as D1. destruct failed.
  { assert (nodata n n') as (l & E & Hn). { apply nodata_trans with m; [exact D1|]. eapply nodata_emit; [exact H | discriminate]. }
    exists l. split; [exact E|]. intros t sid nonce dst Hin. destruct (Hn _ _ _ _ _ Hin). }
  bind H as u m1 H2. apply nodata_wr in H2. pose proof (nodata_trans _ _ _ D1 H2) as D2. clear D1 H1 H2.
  bind H as u2 m2 H1. apply send_packet_ok in H1. destruct H1 as (sk & a & _ & _ & _ & H1).
  set (o := OData pid (ss_id s) _) in *. set (m3 := set_n_out ((n_now m1, o a) :: n_out m1) m1) in *.
  assert (D3 : nodata m3 m2) by (unfold send_retry in H1; minv; dchain).
  assert (D4 : nodata m2 n') by (minv; dchain). pose proof (nodata_trans _ _ _ D3 D4) as D5. clear D3 D4 H1 H.
  destruct D2 as (l1 & E1 & N1), D5 as (l2 & E2 & N2). cbn [m3 n_out set_n_out] in E2. rewrite E1 in E2.
  exists (l2 ++ (n_now m1, o a) :: l1). split; [rewrite E2, <- app_assoc; reflexivity|]. intros t sid nonce dst Hin.
  apply in_app_or in Hin. destruct Hin as [Hin|[Hin|Hin]]; [destruct (N2 _ _ _ _ _ Hin) | | destruct (N1 _ _ _ _ _ Hin)].
  injection Hin as _ -> _ _. reflexivity.
Qed.

(** The session used for sending has the reported method *)
Lemma current_sends : forall P n p, reachable P n -> In p (n_peers n) -> p_state p = Established ->
  exists m, current_method (n_now n) p = Ok (Some m) /\ (exists t sid, created (n_out n) t (p_id p) (p_key p) m sid) /\
    forall n' t sid nonce dst, protocol_send P (p_id p) n = Ok (tt, n') -> newly n n' t (OData (p_id p) sid nonce dst) ->
      exists t0, created (n_out n) t0 (p_id p) (p_key p) m sid.
Proof.
  intros P n p R Hp Es. pose proof (reachable_inv P n R) as I. pose proof (found_in n p (wf_ids _ (i_wf _ _ (i_0 _ _ I))) Hp) as Hf.
  destruct (connected_session P n p R Hp Es) as (s & t1 & Hs & _).
  assert (He : is_established p = true) by (unfold is_established; rewrite Es; reflexivity).
  remember (m_initiator (ss_state s) && sess_valid (n_now n) (p_old p))%bool as old eqn:Eo0.
  assert (X : exists u, (if old then p_old p else p_sess p) = Some u).
  { destruct old; [|exists s; exact Hs]. symmetry in Eo0. apply andb_prop in Eo0. destruct Eo0 as [_ Ev].
    destruct (p_old p) as [u|]; [exists u; reflexivity | discriminate]. }
  destruct X as (u & Hu).
  destruct (si_made _ _ (reachable_sinv P n R) (p_id p) p old u Hf Hu) as (t0 & Hc & _).
  exists (ss_method u). split; [|split].
  - unfold current_method. rewrite He, Hs. cbn [negb]. rewrite <- Eo0, <- Hs, Hu. reflexivity.
  - exists t0, (ss_id u). exact Hc.
  - intros n' t sid nonce dst H Hn. unfold protocol_send in H. bind H as p0 m H1. apply rd_ok in H1. destruct H1 as [Hf0 ->].
    rewrite Hf in Hf0. injection Hf0 as <-. rewrite He in H. cbn [negb] in H. bind H as ok m H1. unfold check_session in H1.
    bind H1 as p0 m0 H2. apply rd_ok in H2. destruct H2 as [Hf0 ->]. rewrite Hf in Hf0. injection Hf0 as <-.
    bind H1 as now m0 H2. apply gets_ok in H2. destruct H2 as [-> ->]. destruct (sess_valid (n_now n) (p_sess p)).
    2:{ exfalso. bind H1 as v m0 H2. apply ret_ok in H1. destruct H1 as [Eok ->]. subst ok. cbn [negb] in H. apply ret_ok in H. destruct H as [_ ->].
        eapply nodata_not; [|exact Hn]. eapply nodata_peer_reset. exact H2. }
    apply ret_ok in H1. destruct H1 as [Eok ->]. subst ok. cbn [negb] in H. bind H as v m H1. destruct (refresh_keeps _ _ _ _ _ H1 Hf) as (D & T & p' & Hf' & Eold & Esess).
    bind H as p0 m0 H2. apply rd_ok in H2. destruct H2 as [Hf0 ->]. rewrite Hf' in Hf0. injection Hf0 as <-.
    bind H as now m0 H2. apply gets_ok in H2. destruct H2 as [-> ->]. rewrite T, Eold in H. rewrite Hs in Esess. destruct (p_sess p') as [s'|] eqn:Es'; [|destruct Esess].
    destruct Esess as (E1 & E2 & E3). rewrite E2, <- Eo0 in H.
    assert (Y : exists u', (if old then p_old p' else p_sess p') = Some u' /\ ss_id u' = ss_id u).
    { destruct old; [exists u; split; [congruence | reflexivity]|]. exists s'. split; [exact Es'|]. rewrite Hs in Hu. injection Hu as <-. exact E1. }
    destruct Y as (u' & Hu' & Eid). exists t0.
    destruct (send_used _ _ _ _ _ _ _ _ H Hf' Hu') as (l2 & E4 & N4). destruct D as (l1 & D1 & D2). destruct Hn as (l & E & Hin).
    rewrite E4, D1, app_assoc in E. apply app_inv_tail in E. subst l. apply in_app_or in Hin.
    destruct Hin as [Hin|Hin]; [|destruct (D2 _ _ _ _ _ Hin)]. apply N4 in Hin. subst sid.
    rewrite Eid. exact Hc.
Qed.
