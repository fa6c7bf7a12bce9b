(** Proofs of the theorems about nodes, part 6: why connections end *)
From Verif Require Import Base BaseLemmas BufferModel NonceModel MethodModel HandshakeModel HandshakeSpec HandshakeProofs
  NodeModel NodeSteps NodeWf NodeInv NodeFun NodeFun2 NodeFun3 NodeFun4 NodeSpec NodeProofs NodeProofs2 NodeProofs3 NodeProofs4 NodeProofs5 NodeKeepSpec.
From Coq Require Import Lia ZifyBool ZifyNat ZifyN Sorted.
Local Open Scope Z_scope.

(** ** Computations that do not end the connection to [T]; those on a peer [q] other
    than [T] do not change [T] at all *)
Definition nd (T : N) (n n' : node) : Prop :=
  n_now n' = n_now n /\ exists l, n_out n' = l ++ n_out n /\ forall t, ~ In (t, ODown T) l.
Definition kp (T q : N) (n n' : node) : Prop :=
  nd T n n' /\ (q <> T -> find_id (n_peers n') T = find_id (n_peers n) T) /\ (ids_ok n -> ids_ok n').

Lemma nd_refl : forall T n, nd T n n.
Proof. intros T n. split; [reflexivity|]. exists []. split; [reflexivity|]. intros t []. Qed.
Lemma nd_trans : forall T n m n', nd T n m -> nd T m n' -> nd T n n'.
Proof.
  intros T n m n' [A (l & B & C)] [A' (l' & B' & C')]. split; [congruence|]. exists (l' ++ l). split; [rewrite B', B, app_assoc; reflexivity|].
  intros t Hin. apply in_app_or in Hin. destruct Hin as [Hin | Hin]; [exact (C' t Hin) | exact (C t Hin)].
Qed.
Lemma kp_refl : forall T q n, kp T q n n.
Proof. intros T q n. split; [apply nd_refl|]. split; [reflexivity | exact (fun I => I)]. Qed.
Lemma kp_trans : forall T q n m n', kp T q n m -> kp T q m n' -> kp T q n n'.
Proof. intros T q n m n' (A & B & C) (A' & B' & C'). split; [eapply nd_trans; eassumption|]. split; [intros Hq; rewrite (B' Hq); exact (B Hq) | exact (fun I => C' (C I))]. Qed.
Lemma ids_ok_eq : forall n n', n_peers n' = n_peers n -> n_next_id n' = n_next_id n -> ids_ok n -> ids_ok n'.
Proof. intros n n' A B I. unfold ids_ok, ids in *. rewrite A, B. exact I. Qed.
Lemma kp_same : forall T q n n', n_peers n' = n_peers n -> n_out n' = n_out n -> n_now n' = n_now n -> n_next_id n' = n_next_id n -> kp T q n n'.
Proof.
  intros T q n n' A B C D. split; [split; [exact C|]; exists []; split; [exact B | intros t []]|]. split; [rewrite A; reflexivity | apply ids_ok_eq; assumption].
Qed.
Lemma upd_ids : forall l q f, keeps_id f -> map p_id (upd_id l q f) = map p_id l.
Proof.
  intros l q f Hk. unfold upd_id. rewrite map_map. apply map_ext. intros p. destruct (N.eqb _ _); [apply Hk | reflexivity].
Qed.
Lemma kp_wr : forall T q f x n n', wr q f n = Ok (x, n') -> keeps_id f -> kp T q n n'.
Proof.
  intros T q f x n n' H Hk. apply wr_ok in H. destruct H as (p & Hf & ->). split; [|split].
  - split; [reflexivity|]. exists []. split; [reflexivity | intros t []].
  - intros Hq. cbn [n_peers set_n_peers]. rewrite find_id_upd by exact Hk. destruct (N.eqb_spec T q) as [E | E]; [congruence | reflexivity].
  - intros I. unfold ids_ok, ids in *. cbn [n_peers set_n_peers n_next_id]. rewrite upd_ids by exact Hk. exact I.
Qed.
Lemma kp_emit : forall T q o x n n', emit o n = Ok (x, n') -> o <> ODown T -> kp T q n n'.
Proof.
  intros T q o x n n' H Ho. apply emit_ok in H. subst n'. split; [|split; [reflexivity | exact (fun I => I)]]. split; [reflexivity|].
  exists [(n_now n, o)]. split; [reflexivity|]. intros t [E | []]. injection E as _ E. exact (Ho E).
Qed.

Lemma kp_orc : forall T q n n', (exists l, n' = set_n_orc l n) -> kp T q n n'.
Proof. intros T q n n' [l ->]. apply kp_same; reflexivity. Qed.
Lemma kp_flip : forall T q x n n', flip n = Ok (x, n') -> kp T q n n'.
Proof. intros T q x n n' H. apply kp_orc. eapply flip_same. exact H. Qed.
Lemma kp_pop : forall T q x n n', pop n = Ok (x, n') -> kp T q n n'.
Proof. intros T q x n n' H. apply kp_orc. eapply pop_same. exact H. Qed.
Lemma kp_rand : forall T q lo hi x n n', rand lo hi n = Ok (x, n') -> kp T q n n'.
Proof. intros T q lo hi x n n' H. apply kp_orc. eapply rand_same. exact H. Qed.
Lemma kp_default_rand : forall T q x n n', handshake_default_rand n = Ok (x, n') -> kp T q n n'.
Proof. intros T q x n n' H. apply kp_orc. eapply default_rand_same. exact H. Qed.
Create HintDb kp.
#[global] Hint Resolve kp_flip kp_pop kp_rand kp_default_rand : kp.
Ltac kw := eapply kp_wr; [eassumption | intros ?; try reflexivity; try kid].
Ltac ke := eapply kp_emit; [eassumption | discriminate].
Ltac km := match goal with H : modn _ _ = Ok _ |- _ => apply modn_ok in H; subst; apply kp_same; reflexivity end.
Ltac kchain :=
  repeat match goal with
  | |- kp _ _ ?n ?n => apply kp_refl
  | H : _ ?n = Ok (_, ?m) |- kp ?T ?q ?n _ =>
      apply (kp_trans T q n m); [solve [eauto 4 with kp | kw | ke | km] |]; clear H
  end.

Lemma kp_schedule_peer_task : forall T q x n n', schedule_peer_task q n = Ok (x, n') -> kp T q n n'.
Proof. intros T q x n n' H. unfold schedule_peer_task in H. kw. Qed.
#[global] Hint Resolve kp_schedule_peer_task : kp.
Lemma kp_set_next_handshake : forall T q d x n n', set_next_handshake q d n = Ok (x, n') -> kp T q n n'.
Proof. intros T q d x n n' H. unfold set_next_handshake in H. minv. kw. Qed.
#[global] Hint Resolve kp_set_next_handshake : kp.
Lemma kp_schedule_handshake : forall T q d x n n', schedule_handshake q d n = Ok (x, n') -> kp T q n n'.
Proof. intros T q d x n n' H. unfold schedule_handshake in H. minv. kchain. Qed.
#[global] Hint Resolve kp_schedule_handshake : kp.
Lemma kp_schedule_handshake_default : forall T q x n n', schedule_handshake_default q n = Ok (x, n') -> kp T q n n'.
Proof. intros T q x n n' H. unfold schedule_handshake_default in H. minv. kchain. Qed.
#[global] Hint Resolve kp_schedule_handshake_default : kp.
Lemma kp_peer_seen : forall T q x n n', peer_seen q n = Ok (x, n') -> kp T q n n'.
Proof. intros T q x n n' H. unfold peer_seen in H. minv. kw. Qed.
Lemma kp_clear_keepalive : forall T q x n n', clear_keepalive q n = Ok (x, n') -> kp T q n n'.
Proof. intros T q x n n' H. unfold clear_keepalive in H. minv. kw. Qed.
#[global] Hint Resolve kp_peer_seen kp_clear_keepalive : kp.
Lemma kp_send_packet : forall T q sk dst pid o x n n', send_packet sk dst pid o n = Ok (x, n') ->
  (match pid with Some r => r = q | None => True end) -> (forall a, o a <> ODown T) -> kp T q n n'.
Proof.
  intros T q sk dst pid o x n n' H Hq Ho. apply send_packet_ok in H. destruct H as (s & a & _ & _ & _ & H).
  apply kp_trans with (set_n_out ((n_now n, o a) :: n_out n) n).
  - apply (kp_emit T q (o a) tt); [reflexivity | apply Ho].
  - unfold send_retry in H. destruct pid as [r|]; [subst r|]; minv; kchain.
Qed.
Lemma kp_maintenance : forall T q x n n', maintenance n = Ok (x, n') -> kp T q n n'.
Proof.
  intros T q x n n' H. unfold maintenance in H. apply modn_ok in H. subst n'.
  destruct (timed_out _ _); [apply kp_same; reflexivity | apply kp_refl].
Qed.
#[global] Hint Resolve kp_maintenance : kp.
Lemma kp_handshake_init : forall T q sk dst pid x n n', handshake_init sk dst pid n = Ok (x, n') ->
  (match pid with Some r => r = q | None => True end) -> kp T q n n'.
Proof.
  intros T q sk dst pid x n n' H Hq. unfold handshake_init in H. minv. kchain.
  eapply kp_send_packet; [eassumption | exact Hq | discriminate].
Qed.
Lemma kp_send_error : forall T q sk ra pid x n n', send_error sk ra pid n = Ok (x, n') ->
  (match pid with Some r => r = q | None => True end) -> kp T q n n'.
Proof. intros T q sk ra pid x n n' H Hq. eapply kp_send_packet; [exact H | exact Hq | discriminate]. Qed.

(** ** Setting up and resetting *)
Lemma kp_free_socket : forall T q x n n', free_socket q n = Ok (x, n') -> kp T q n n'.
Proof. intros T q x n n' H. unfold free_socket in H. minv; kchain. Qed.
#[global] Hint Resolve kp_free_socket : kp.
Lemma kp_reset_socket : forall T q x n n', reset_socket q n = Ok (x, n') -> kp T q n n'.
Proof. intros T q x n n' H. unfold reset_socket in H. minv; kchain. Qed.
#[global] Hint Resolve kp_reset_socket : kp.
Lemma kp_init_handshake : forall T P q x n n', init_handshake P q n = Ok (x, n') -> kp T q n n'.
Proof. intros T P q x n n' H. unfold init_handshake in H. minv; kchain. Qed.
#[global] Hint Resolve kp_init_handshake : kp.
Lemma kp_rd_remote : forall T q i x n n', rd_remote q i n = Ok (x, n') -> kp T q n n'.
Proof. intros T q i x n n' H. apply rd_remote_ok in H. destruct H as [-> _]. apply kp_refl. Qed.
#[global] Hint Resolve kp_rd_remote : kp.
Lemma kp_resolve_peer : forall T q i x n n', resolve_peer q i n = Ok (x, n') -> kp T q n n'.
Proof. intros T q i x n n' H. unfold resolve_peer in H. minv; kchain. Qed.
#[global] Hint Resolve kp_resolve_peer : kp.
Lemma kp_setup_peer : forall T P q x n n', setup_peer P q n = Ok (x, n') -> kp T q n n'.
Proof.
  intros T P q x n n' H. unfold setup_peer in H.
  bind H as now m H1. apply gets_ok in H1. destruct H1 as [-> ->].
  bind H as u m1 H1. apply (kp_wr T) in H1; [|intros p; reflexivity]. apply (kp_trans _ _ _ _ _ H1). clear H1.
  minv; kchain.
Qed.
#[global] Hint Resolve kp_setup_peer : kp.
(** only if [T] is connected and reset is there an effect *)
Lemma kp_reset_peer : forall T P q x n n', reset_peer P q n = Ok (x, n') ->
  q <> T \/ (forall p, find_id (n_peers n) T = Some p -> is_established p = false) -> kp T q n n'.
Proof.
  intros T P q x n n' H Hq. apply reset_peer_ok in H. destruct H as (p & f & Hf & _ & Hk & ->). split; [|split].
  - split; [destruct (is_established p); reflexivity|]. destruct (is_established p) eqn:E.
    + exists [(n_now n, ODown q)]. split; [reflexivity|]. intros t [X | []]. injection X as _ ->. destruct Hq as [Hq | Hq]; [congruence|].
      rewrite (Hq p Hf) in E. discriminate.
    + exists []. split; [reflexivity | intros t []].
  - intros Hne. cbn [n_peers set_n_peers]. rewrite find_id_upd by exact Hk. destruct (N.eqb_spec T q); [congruence | reflexivity].
  - intros I. unfold ids_ok, ids in *. cbn [n_peers set_n_peers n_next_id set_n_eth]. rewrite upd_ids by exact Hk. destruct (is_established p); exact I.
Qed.
Lemma kp_peer_reset : forall T P q x n n', peer_reset P q n = Ok (x, n') ->
  q <> T \/ (forall p, find_id (n_peers n) T = Some p -> is_established p = false) -> kp T q n n'.
Proof.
  intros T P q x n n' H Hq. unfold peer_reset in H. bind H as p m H1. apply rd_ok in H1. destruct H1 as [Hf ->]. bind H as u m1 H1.
  apply kp_trans with m1; [|eauto with kp]. destruct (p_state p); first [eapply kp_reset_peer; eassumption | apply ret_ok in H1; destruct H1 as [_ ->]; apply kp_refl].
Qed.
Lemma find_id_filter : forall l q T, q <> T -> find_id (filter (fun p => negb (N.eqb (p_id p) q)) l) T = find_id l T.
Proof.
  intros l q T Hq. induction l as [|p l IH]; [reflexivity|]. cbn [filter]. unfold find_id in *. cbn [find].
  destruct (N.eqb_spec (p_id p) q) as [E | E]; cbn [negb].
  - rewrite IH. destruct (N.eqb_spec (p_id p) T); [congruence | reflexivity].
  - cbn [find]. destruct (N.eqb (p_id p) T); [reflexivity | exact IH].
Qed.
Lemma sorted_map_filter : forall (f : peer -> bool) l, StronglySorted N.lt (map p_id l) -> StronglySorted N.lt (map p_id (filter f l)).
Proof.
  intros f l. induction l as [|p l IH]; intros H; [constructor|]. inversion H as [|? ? A B]; subst. cbn [filter]. destruct (f p); [|exact (IH A)].
  cbn [map]. constructor; [exact (IH A)|]. rewrite Forall_forall in *. intros y Hy. apply in_map_iff in Hy. destruct Hy as (z & <- & Hz). apply filter_In in Hz. apply B. apply in_map. apply Hz.
Qed.
Lemma kp_peer_delete : forall T P q x n n', peer_delete P q n = Ok (x, n') -> q <> T -> kp T q n n'.
Proof.
  intros T P q x n n' H Hq. unfold peer_delete in H. bind H as u m H1. apply (kp_reset_peer T) in H1; [|left; exact Hq].
  apply modn_ok in H. subst n'. apply (kp_trans _ _ _ _ _ H1). split; [split; [reflexivity|]; exists []; split; [reflexivity | intros t []]|]. split.
  - intros _. cbn [n_peers set_n_peers]. apply find_id_filter. exact Hq.
  - intros [I1 I2]. unfold ids_ok, ids in *. cbn [n_peers set_n_peers n_next_id]. split; [apply sorted_map_filter; exact I1|].
    rewrite Forall_forall in *. intros y Hy. apply in_map_iff in Hy. destruct Hy as (z & <- & Hz). apply filter_In in Hz. apply I2. apply in_map. apply Hz.
Qed.
Lemma kp_reset_peer_address : forall T P q x n n', reset_peer_address P q n = Ok (x, n') ->
  q <> T \/ (forall p, find_id (n_peers n) T = Some p -> is_established p = false) -> kp T q n n'.
Proof.
  intros T P q x n n' H Hq. unfold reset_peer_address in H. bind H as p m H1. apply rd_ok in H1. destruct H1 as [Hf ->].
  destruct (is_established p) eqn:E; [eapply kp_peer_reset; eassumption | kw].
Qed.

(** ** Payload *)
Lemma kp_check_session_refresh : forall T q x n n', check_session_refresh q n = Ok (x, n') -> kp T q n n'.
Proof. intros T q x n n' H. unfold check_session_refresh in H. minv; kchain. Qed.
#[global] Hint Resolve kp_check_session_refresh : kp.
Lemma kp_session_send : forall T P q old x n n', session_send P q old n = Ok (x, n') -> kp T q n n'.
Proof.
  intros T P q old x n n' H. unfold session_send in H. bind H as p m H1. apply rd_ok in H1. destruct H1 as [Hf ->].
  destruct (if old then p_old p else p_sess p) as [s|]; [|discriminate]. bind H as failed m H1. apply (kp_flip T q) in H1. apply (kp_trans _ _ _ _ _ H1). clear H1.
  destruct failed; [ke|]. bind H as u m1 H1. apply (kp_wr T) in H1; [|intros y; destruct old; reflexivity]. apply (kp_trans _ _ _ _ _ H1). clear H1.
  bind H as u1 m2 H1. apply (kp_send_packet T q) in H1; [|reflexivity | discriminate]. apply (kp_trans _ _ _ _ _ H1). clear H1.
  minv; kchain.
Qed.
#[global] Hint Resolve kp_session_send : kp.

(** nothing is claimed if the session of [T] is over *)
Definition over (T : N) (n : node) : Prop := exists p, find_id (n_peers n) T = Some p /\ sess_valid (n_now n) (p_sess p) = false.
Lemma check_session_down : forall T P q b n n', check_session P q n = Ok (b, n') -> kp T q n n' \/ (q = T /\ over T n).
Proof.
  intros T P q b n n' H. unfold check_session in H. bind H as p m H1. apply rd_ok in H1. destruct H1 as [Hf ->].
  bind H as now m H1. apply gets_ok in H1. destruct H1 as [-> ->]. destruct (sess_valid _ _) eqn:E.
  - apply ret_ok in H. destruct H as [_ ->]. left. apply kp_refl.
  - bind H as u m H1. apply ret_ok in H. destruct H as [_ ->]. destruct (N.eq_dec q T) as [->|Hq].
    + right. split; [reflexivity|]. exists p. split; assumption.
    + left. eapply kp_peer_reset; [exact H1 | left; exact Hq].
Qed.
Lemma protocol_send_down : forall T P q x n n', protocol_send P q n = Ok (x, n') -> kp T q n n' \/ (q = T /\ over T n).
Proof.
  intros T P q x n n' H. unfold protocol_send in H. bind H as p m H1. apply rd_ok in H1. destruct H1 as [Hf ->].
  destruct (is_established p); cbn [negb] in H; [|apply ret_ok in H; destruct H as [_ ->]; left; apply kp_refl].
  bind H as b m H1. destruct (check_session_down T _ _ _ _ _ H1) as [K | X]; [|right; exact X]. left. apply (kp_trans _ _ _ _ _ K). clear K H1.
  destruct b; cbn [negb] in H; [|apply ret_ok in H; destruct H as [_ ->]; apply kp_refl]. minv; kchain.
Qed.
Lemma over_eq : forall T n n', n_now n' = n_now n -> find_id (n_peers n') T = find_id (n_peers n) T -> over T n' -> over T n.
Proof. intros T n n' A B (p & C & D). exists p. rewrite <- B, <- A. split; assumption. Qed.

Lemma send_each_down : forall T P source l x n n',
  each (fun pid => p <- rd pid ;; if ((match source with Some s => N.eqb s pid | None => false end) || negb (is_established p))%bool then ret tt
                   else protocol_send P pid) l n = Ok (x, n') -> NoDup l ->
  nd T n n' \/ over T n.
Proof.
  intros T P source l. induction l as [|q l IH]; intros x n n' H Hnd; cbn [each] in H.
  - apply ret_ok in H. destruct H as [_ ->]. left. apply nd_refl.
  - bind H as u m H1. inversion Hnd as [|? ? Hni Hnd']; subst.
    assert (K : kp T q n m \/ (q = T /\ over T n)).
    { bind H1 as p m1 H2. apply rd_ok in H2. destruct H2 as [Hf ->]. destruct (_ || _)%bool; [apply ret_ok in H1; destruct H1 as [_ ->]; left; apply kp_refl|].
      exact (protocol_send_down T _ _ _ _ _ H1). }
    destruct K as [K | [_ K]]; [|right; exact K]. destruct (N.eq_dec q T) as [->|Hq].
    + (* [T] is not in the rest *)
      left. apply nd_trans with m; [apply K|]. clear - H Hni. revert x m n' H. induction l as [|q l IH]; intros x n n' H; cbn [each] in H.
      * apply ret_ok in H. destruct H as [_ ->]. apply nd_refl.
      * bind H as u m H1. apply nd_trans with m; [|eapply IH; [intros X; apply Hni; right; exact X | exact H]].
        bind H1 as p m1 H2. apply rd_ok in H2. destruct H2 as [Hf ->]. destruct (_ || _)%bool; [apply ret_ok in H1; destruct H1 as [_ ->]; apply nd_refl|].
        destruct (protocol_send_down T _ _ _ _ _ H1) as [[K _] | [E _]]; [exact K|]. exfalso. apply Hni. left. exact E.
    + destruct (IH _ _ _ H Hnd') as [X | X]; [left; eapply nd_trans; [apply K | exact X]|]. right.
      destruct K as [[Kn _] [Kf _]]. eapply over_eq; [exact Kn | exact (Kf Hq) | exact X].
Qed.
Lemma send_all_down : forall T P source x n n', send_all P source n = Ok (x, n') -> ids_ok n -> nd T n n' \/ over T n.
Proof.
  intros T P source x n n' H I. unfold send_all in H. bind H as l m H1. apply gets_ok in H1. destruct H1 as [-> ->].
  eapply send_each_down; [exact H | apply sorted_nodup; exact (proj1 I)].
Qed.
(** a peer's own packet is never sent back to it *)
Lemma send_each_source : forall T P l x n n',
  each (fun pid => p <- rd pid ;; if ((match Some T with Some s => N.eqb s pid | None => false end) || negb (is_established p))%bool then ret tt
                   else protocol_send P pid) l n = Ok (x, n') -> nd T n n'.
Proof.
  intros T P l. induction l as [|q l IH]; intros x n n' H; cbn [each] in H.
  - apply ret_ok in H. destruct H as [_ ->]. apply nd_refl.
  - bind H as u m H1. apply nd_trans with m; [|exact (IH _ _ _ H)]. bind H1 as p m1 H2. apply rd_ok in H2. destruct H2 as [Hf ->].
    destruct (N.eqb_spec T q) as [E | E]; cbn [orb] in H1; [apply ret_ok in H1; destruct H1 as [_ ->]; apply nd_refl|].
    destruct (negb _); [apply ret_ok in H1; destruct H1 as [_ ->]; apply nd_refl|].
    destruct (protocol_send_down T _ _ _ _ _ H1) as [[K _] | [X _]]; [exact K | congruence].
Qed.

Lemma kp_eth_add : forall T q pid a x n n', eth_add pid a n = Ok (x, n') -> kp T q n n'.
Proof. intros T q pid a x n n' H. unfold eth_add in H. destruct pid as [r|]; minv; kchain. Qed.
#[global] Hint Resolve kp_eth_add : kp.
Lemma kp_nosend : forall T n n', (forall q, kp T q n n') -> n_now n' = n_now n /\ find_id (n_peers n') T = find_id (n_peers n) T.
Proof.
  intros T n n' H. split; [apply (H 0%N)|]. destruct (N.eq_dec T 0) as [->|E]; [apply (H 1%N); lia | apply (H 0%N); congruence].
Qed.

Lemma send_data_down : forall T P source dest src dst x n n', send_data P source dest src dst n = Ok (x, n') -> ids_ok n ->
  nd T n n' \/ over T n.
Proof.
  intros T P source dest src dst x n n' H I. unfold send_data in H. destruct dest as [d|].
  { destruct (protocol_send_down T _ _ _ _ _ H) as [[K _] | [_ K]]; [left; exact K | right; exact K]. }
  destruct (c_tap P); [|eapply send_all_down; eassumption].
  bind H as u m H1.
  assert (K : forall q, kp T q n m).
  { destruct source as [s|]; [apply ret_ok in H1; destruct H1 as [_ ->]; intros q; apply kp_refl|]. unfold when in H1.
    destruct (is_unicast src); [|apply ret_ok in H1; destruct H1 as [_ ->]; intros q; apply kp_refl].
    intros q. eapply kp_eth_add. exact H1. }
  pose proof (proj2 (proj2 (K 0%N)) I) as I'. destruct (kp_nosend _ _ _ K) as [K1 K2]. clear H1.
  assert (G : nd T m n' \/ over T m).
  { bind H as l m1 H1. apply gets_ok in H1. destruct H1 as [-> ->].
    destruct (if is_unicast dst then eth_find (n_eth m) dst else None) as [e|]; [|eapply send_all_down; eassumption].
    destruct (e_peer e) as [d|]; [|apply ret_ok in H; destruct H as [_ ->]; left; apply nd_refl].
    destruct (match source with Some s => N.eqb s d | None => false end); [apply ret_ok in H; destruct H as [_ ->]; left; apply nd_refl|].
    destruct (protocol_send_down T _ _ _ _ _ H) as [[X _] | [_ X]]; [left; exact X | right; exact X]. }
  destruct G as [G | G]; [left; eapply nd_trans; [apply (K 0%N) | exact G] | right; eapply over_eq; eassumption].
Qed.
(** the source of a packet is not reset by passing it on *)
Lemma send_data_source : forall T P src dst x n n', send_data P (Some T) None src dst n = Ok (x, n') -> nd T n n'.
Proof.
  intros T P src dst x n n' H. unfold send_data in H.
  assert (A : forall y a b, send_all P (Some T) a = Ok (y, b) -> nd T a b).
  { intros y a b X. unfold send_all in X. bind X as l m H1. apply gets_ok in H1. destruct H1 as [-> ->]. exact (send_each_source T P _ _ _ _ X). }
  destruct (c_tap P); [|exact (A _ _ _ H)]. bind H as u m H1. apply ret_ok in H1. destruct H1 as [_ ->].
  bind H as l m H1. apply gets_ok in H1. destruct H1 as [-> ->].
  destruct (if is_unicast dst then _ else None) as [e|]; [|exact (A _ _ _ H)].
  destruct (e_peer e) as [d|]; [|apply ret_ok in H; destruct H as [_ ->]; apply nd_refl].
  destruct (N.eqb_spec T d) as [E | E]; [apply ret_ok in H; destruct H as [_ ->]; apply nd_refl|].
  destruct (protocol_send_down T _ _ _ _ _ H) as [[X _] | [X _]]; [exact X | congruence].
Qed.

Lemma handle_receive_down : forall T P q sid src dst x n n', handle_receive P q sid src dst n = Ok (x, n') -> ids_ok n ->
  nd T n n' \/ (q <> T /\ over T n).
Proof.
  intros T P q sid src dst x n n' H I. unfold handle_receive in H. bind H as p m H1. apply rd_ok in H1. destruct H1 as [Hf ->].
  destruct (p_iface p); cbn [negb] in H; [|apply ret_ok in H; destruct H as [_ ->]; left; apply nd_refl].
  bind H as u m H1. assert (K : forall r, kp T r n m) by (intros r; unfold when in H1; destruct (_ && _)%bool; [eapply kp_eth_add; exact H1 | apply ret_ok in H1; destruct H1 as [_ ->]; apply kp_refl]).
  bind H as u1 m1 H2. assert (K2 : forall r, kp T r n m1) by (intros r; eapply kp_trans; [apply K|]; ke). clear K H1 H2.
  destruct (kp_nosend _ _ _ K2) as [E1 E2]. pose proof (proj2 (proj2 (K2 0%N)) I) as I'. unfold when in H.
  destruct (_ && _)%bool; [|apply ret_ok in H; destruct H as [_ ->]; left; apply (K2 0%N)].
  destruct (N.eq_dec q T) as [->|Hq].
  - left. eapply nd_trans; [apply (K2 0%N)|]. exact (send_data_source T P _ _ _ _ _ H).
  - destruct (send_data_down T _ _ _ _ _ _ _ _ H I') as [X | X]; [left; eapply nd_trans; [apply (K2 0%N) | exact X]|].
    right. split; [exact Hq|]. eapply over_eq; eassumption.
Qed.
Lemma handle_recv_down : forall T P q nonce x n n', handle_recv P q nonce n = Ok (x, n') -> ids_ok n -> nd T n n' \/ over T n.
Proof.
  intros T P q nonce x n n' H I. unfold handle_recv in H. bind H as ok m H1.
  destruct (check_session_down T _ _ _ _ _ H1) as [K | [_ X]]; [|right; exact X]. clear H1.
  assert (G : forall a, kp T q n a -> (exists sid src dst y, handle_receive P q sid src dst a = Ok (y, n')) -> nd T n n' \/ over T n).
  { intros a Ka (sid & src & dst & y & Ha). destruct (handle_receive_down T _ _ _ _ _ _ _ _ Ha (proj2 (proj2 Ka) I)) as [X | [Hq X]].
    - left. eapply nd_trans; [apply Ka | exact X].
    - right. eapply over_eq; [apply Ka | exact (proj1 (proj2 Ka) Hq) | exact X]. }
  assert (G0 : kp T q n n' -> nd T n n' \/ over T n) by (intros [X _]; left; exact X).
  destruct ok; cbn [negb] in H; [|apply ret_ok in H; destruct H as [_ ->]; exact (G0 K)].
  bind H as p m1 H1. apply rd_ok in H1. destruct H1 as [Hf ->]. bind H as now m1 H1. apply gets_ok in H1. destruct H1 as [-> ->].
  bind H as ao m1 H1. apply (kp_flip T q) in H1. apply (kp_trans _ _ _ _ _ K) in H1. clear K.
  bind H as an m2 H2. apply (kp_flip T q) in H2. apply (kp_trans _ _ _ _ _ H1) in H2. clear H1.
  bind H as r m3 H3. assert (K3 : kp T q n m3) by (eapply kp_trans; [exact H2|]; clear - H3; minv; kchain). clear H2 H3.
  bind H as r2 m4 H4. assert (K4 : kp T q n m4).
  { eapply kp_trans; [exact K3|]. clear - H4. destruct r as [y|]; [apply ret_ok in H4; destruct H4 as [_ ->]; apply kp_refl|].
    destruct (p_sess p) as [s|]; [|discriminate]. minv; kchain. }
  clear K3 H4. destruct r2 as [[sid fr]|]; [|apply ret_ok in H; destruct H as [_ ->]; exact (G0 K4)].
  bind H as u m5 H5. assert (K5 : kp T q n m5) by (eapply kp_trans; [exact K4 | ke]). clear K4 H5.
  bind H as u1 m6 H6. assert (K6 : kp T q n m6) by (eapply kp_trans; [exact K5 | eauto with kp]). clear K5 H6.
  bind H as hp m7 H7. assert (K7 : kp T q n m7) by (eapply kp_trans; [exact K6 | eauto with kp]). clear K6 H7.
  bind H as src m8 H8. assert (K8 : kp T q n m8) by (eapply kp_trans; [exact K7 | eauto with kp]). clear K7 H8.
  bind H as dst m9 H9. assert (K9 : kp T q n m9) by (eapply kp_trans; [exact K8 | eauto with kp]). clear K8 H9.
  unfold when in H. destruct (_ && _)%bool; [|apply ret_ok in H; destruct H as [_ ->]; exact (G0 K9)].
  apply (G m9 K9). do 4 eexists. exact H.
Qed.

(** ** Handshakes *)
Lemma kp_other : forall T e q n m, kp T e n m -> e <> T -> kp T q n m.
Proof. intros T e q n m (A & B & C) He. split; [exact A|]. split; [intros _; exact (B He) | exact C]. Qed.
(** the address [a] is taken from [T] *)
Definition moved (T : N) (a : addr) (n : node) : Prop :=
  exists p, find_id (n_peers n) T = Some p /\ p_addr p = Some a /\ owns_address p a = false.
Lemma claim_scan_evict : forall l pid a force e, claim_scan l pid a force = ClEvict e ->
  exists q, In q l /\ p_id q = e /\ p_addr q = Some a /\ owns_address q a = false /\ (force = false -> is_established q = false).
Proof.
  induction l as [|x l IH]; intros pid a force e H; cbn [claim_scan] in H; [discriminate|].
  assert (R : claim_scan l pid a force = ClEvict e -> exists q, In q (x :: l) /\ p_id q = e /\ p_addr q = Some a /\ owns_address q a = false /\ (force = false -> is_established q = false)).
  { intros X. destruct (IH _ _ _ _ X) as (q & A & B). exists q. split; [right; exact A | exact B]. }
  destruct (N.eqb (p_id x) pid); [exact (R H)|]. destruct (negb (is_enabled x)); [exact (R H)|]. destruct (owns_address x a) eqn:Eo; [discriminate|].
  destruct (addr_eqb (p_addr x) (Some a)) eqn:Ea; [|exact (R H)]. destruct (negb force && is_established x)%bool eqn:Ef; [discriminate|]. injection H as <-.
  exists x. split; [left; reflexivity|]. split; [reflexivity|]. split; [apply addr_eqb_true; exact Ea|]. split; [exact Eo|]. intros ->. cbn [negb andb] in Ef. exact Ef.
Qed.
Lemma claim_rest : forall T (pid : N) (sk : option sock) (laddr : option addr) a b n n',
  (wr pid (set_p_addr (Some a)) ;;
      match sk with
      | Some (SBound k) =>
          p <- rd pid ;;
          match p_sock p with
          | Some (SBound k') => when (negb (N.eqb k k')) (free_socket pid ;; wr pid (set_p_sock (Some (SBound k))))
          | _ => free_socket pid ;; wr pid (set_p_sock (Some (SBound k)))
          end
      | Some sk => use_sock sk
      | None => ret tt
      end ;;
      match laddr with
      | Some la => wr pid (set_p_laddr (Some la))
      | None => ret tt
      end ;;
      ret true) n = Ok (b, n') -> kp T pid n n'.
Proof.
  intros T pid sk laddr a b n n' H. bind H as u m H1. apply (kp_wr T) in H1; [|intros y; reflexivity]. apply (kp_trans _ _ _ _ _ H1). clear H1.
  bind H as u1 m1 H1. apply kp_trans with m1.
  - clear H. destruct sk as [[k|o i]|]; [|apply use_sock_ok in H1; destruct H1 as [_ ->]; apply kp_refl | apply ret_ok in H1; destruct H1 as [_ ->]; apply kp_refl].
    bind H1 as p m2 H2. apply rd_ok in H2. destruct H2 as [Hf ->]. unfold when in H1. destruct (p_sock p) as [[k'|o i]|]; minv; kchain.
  - bind H as u2 m2 H2. apply ret_ok in H. destruct H as [_ ->]. destruct laddr as [la|]; [kw | apply ret_ok in H2; destruct H2 as [_ ->]; apply kp_refl].
Qed.
Lemma claim_down : forall T P q sk la a force b n n', claim_address P q sk la a force n = Ok (b, n') -> ids_ok n -> q <> T ->
  nd T n n' /\ (force = true -> kp T q n n') \/ (force = true /\ moved T a n).
Proof.
  intros T P q sk la a force b n n' H I Hq. unfold claim_address in H. bind H as l m H1. apply gets_ok in H1. destruct H1 as [-> ->].
  destruct (claim_scan (n_peers n) q a force) as [| |e] eqn:E.
  - bind H as u m H1. apply ret_ok in H1. destruct H1 as [_ ->]. apply (claim_rest T) in H. left. split; [apply H | intros _; exact H].
  - bind H as u m H1. apply ret_ok in H. destruct H as [_ ->]. apply (kp_reset_peer_address T) in H1; [|left; exact Hq]. left. split; [apply H1 | intros _; exact H1].
  - destruct (claim_scan_evict _ _ _ _ _ E) as (x & Hin & <- & Hax & Hox & Hef). bind H as u m H1.
    pose proof (in_find n x I Hin) as Hfx. destruct (N.eq_dec (p_id x) T) as [Ex | Ex].
    + destruct force; [right; split; [reflexivity|]; exists x; rewrite Ex in Hfx; repeat split; assumption|]. left. split; [|discriminate].
      apply (kp_reset_peer_address T) in H1; [|right; intros y Hy; rewrite Ex, Hy in Hfx; injection Hfx as ->; exact (Hef eq_refl)].
      apply (claim_rest T) in H. eapply nd_trans; [apply H1 | apply H].
    + apply (kp_reset_peer_address T) in H1; [|left; exact Ex]. apply (claim_rest T) in H. left.
      assert (K : kp T q n n') by (eapply kp_trans; [eapply kp_other; [exact H1 | exact Ex] | exact H]). split; [apply K | intros _; exact K].
Qed.

Lemma kp_new_session : forall T P q method i c hk salt sigma serial src x n n', new_session P q method i c hk salt sigma serial src n = Ok (x, n') -> kp T q n n'.
Proof.
  intros T P q method i c hk salt sigma serial src x n n' H. unfold new_session in H. bind H as f m H1. apply (kp_flip T q) in H1. apply (kp_trans _ _ _ _ _ H1). clear H1.
  destruct f; [apply ret_ok in H; destruct H as [_ ->]; apply kp_refl|]. bind H as now m1 H1. apply gets_ok in H1. destruct H1 as [-> ->].
  bind H as r m1 H1. apply (kp_rand T q) in H1. apply (kp_trans _ _ _ _ _ H1). clear H1. bind H as sid m2 H1. apply gets_ok in H1. destruct H1 as [-> ->].
  bind H as u m2 H1. apply kp_trans with m2; [km|]. clear H1. cbv zeta in H. bind H as p m3 H1. apply rd_ok in H1. destruct H1 as [Hf ->].
  bind H as u1 m3 H1. apply kp_trans with m3.
  { unfold supersede_session in H1. bind H1 as now2 m4 H2. apply gets_ok in H2. destruct H2 as [-> ->]. eapply kp_wr; [exact H1|].
    intros y. unfold superseded. cbv zeta. destruct (_ && _)%bool; cbn [p_old set_p_old]; [destruct (p_sess y) | destruct (p_old y)]; try destruct (bytes_eqb _ _); reflexivity. }
  clear H1. bind H as u2 m4 H1. apply kp_trans with m4; [kw|]. clear H1. bind H as u3 m5 H1. apply ret_ok in H. destruct H as [_ ->]. ke.
Qed.
#[global] Hint Resolve kp_new_session : kp.
Lemma kp_set_established : forall T q x n n', set_established q n = Ok (x, n') -> kp T q n n'.
Proof.
  intros T q x n n' H. unfold set_established in H. bind H as p m H1. apply rd_ok in H1. destruct H1 as [Hf ->]. bind H as ok m H1.
  apply kp_trans with m; [destruct (p_iface p); minv; kchain|]. clear H1. minv; kchain.
Qed.
#[global] Hint Resolve kp_set_established : kp.

Lemma establish_down : forall T P q method sk la ra i c hk salt sigma serial b n n',
  establish P q method sk la ra i c hk salt sigma serial n = Ok (b, n') -> ids_ok n ->
  nd T n n' /\ (q <> T -> kp T q n n') \/
  (exists p, find_id (n_peers n) q = Some p /\ (p_serial p < serial)%N) /\ (q = T \/ moved T ra n).
Proof.
  intros T P q method sk la ra i c hk salt sigma serial b n n' H I. unfold establish in H. bind H as p m H1. apply rd_ok in H1. destruct H1 as [Hf ->].
  destruct (serial <=? p_serial p)%N eqn:Es; [apply ret_ok in H; destruct H as [_ ->]; left; split; [apply nd_refl | intros _; apply kp_refl]|].
  assert (Hs : exists p, find_id (n_peers n) q = Some p /\ (p_serial p < serial)%N) by (exists p; split; [exact Hf | lia]).
  destruct (N.eq_dec q T) as [Hq | Hq]; [right; split; [exact Hs | left; exact Hq]|].
  bind H as ok m H1. destruct (claim_down T _ _ _ _ _ _ _ _ _ H1 I Hq) as [[_ K] | [_ X]]; [|right; split; [exact Hs | right; exact X]].
  specialize (K eq_refl). clear H1. left. assert (G : kp T q n n'); [|split; [apply G | intros _; exact G]]. apply (kp_trans _ _ _ _ _ K). clear K Hf Hs Es I p n.
  assert (R : forall a u c, peer_reset P q a = Ok (u, c) -> kp T q a c) by (intros a u c' X; eapply kp_peer_reset; [exact X | left; exact Hq]).
  destruct ok; cbn [negb] in H; [|bind H as u m1 H1; apply ret_ok in H; destruct H as [_ ->]; exact (R _ _ _ H1)].
  bind H as ok m1 H1. apply (kp_new_session T) in H1. apply (kp_trans _ _ _ _ _ H1). clear H1.
  destruct ok; cbn [negb] in H; [|bind H as u m2 H1; apply ret_ok in H; destruct H as [_ ->]; exact (R _ _ _ H1)].
  bind H as ok m2 H1. apply (kp_set_established T) in H1. apply (kp_trans _ _ _ _ _ H1). clear H1.
  destruct ok; cbn [negb] in H; [|bind H as u m3 H1; apply ret_ok in H; destruct H as [_ ->]; exact (R _ _ _ H1)].
  minv; kchain.
Qed.

(** a received handshake proves what [fresh_proof] asks for *)
Definition proves (P : params) (n : node) (w : hsview) (p : peer) : Prop :=
  exists initiator hk salt sigma k mac tlv0,
    w_recipient w = Some (c_own P) /\ w_sender_hk w = Some hk /\ w_recipient_hk w = Some (c_eph P (k_serial k)) /\
    w_mac w = Some (mac, tlv0) /\ c_mac P salt tlv0 = mac /\ c_shared P initiator (k_serial k) (p_key p) hk = Some (sigma, salt) /\
    (k = n_cur n \/ k = n_prev n) /\ n_now n < k_valid_till k /\ (p_serial p < k_serial k)%N.

Lemma kp_update_shared : forall T P q serial hk x n n', update_shared P q serial hk n = Ok (x, n') -> kp T q n n'.
Proof.
  intros T P q serial hk x n n' H. unfold update_shared in H. bind H as p m H1. apply rd_ok in H1. destruct H1 as [Hf ->]. cbv zeta in H.
  destruct (p_cache p) as [c|]; [destruct (_ && _)%bool|]; [apply ret_ok in H; destruct H as [_ ->]; apply kp_refl | |];
    (destruct (c_shared _ _ _ _ _) as [[s k]|]; minv; kchain).
Qed.
#[global] Hint Resolve kp_update_shared : kp.

Lemma reply_down : forall T P sk la ra q hk w x n n', handshake_reply P sk la ra q hk w n = Ok (x, n') -> inv P n ->
  w_sender_hk w = Some hk -> (match w_recipient w with Some rk => rk = c_own P | None => True end) ->
  nd T n n' \/ (exists p, find_id (n_peers n) q = Some p /\ proves P n w p) /\ (q = T \/ moved T ra n).
Proof.
  intros T P sk la ra q hk w x n n' H I Ehk Erec. assert (Ii : ids_ok n) by (exact (wf_ids _ (i_wf _ _ (i_0 _ _ I)))). unfold handshake_reply in H.
  destruct (w_recipient w) as [rk|] eqn:Er; [|apply ret_ok in H; destruct H as [_ ->]; left; apply nd_refl]. subst rk.
  destruct (w_recipient_hk w) as [rh|] eqn:Erh; [|apply ret_ok in H; destruct H as [_ ->]; left; apply nd_refl].
  destruct (w_mac w) as [[mac tlv0]|] eqn:Emac; [|apply ret_ok in H; destruct H as [_ ->]; left; apply nd_refl].
  bind H as now m H1. apply gets_ok in H1. destruct H1 as [-> ->].
  bind H as cur m H1. apply gets_ok in H1. destruct H1 as [-> ->].
  bind H as prev m H1. apply gets_ok in H1. destruct H1 as [-> ->].
  pose (sel := if key_matches P (n_now n) (n_cur n) rh then Some (n_cur n) else if key_matches P (n_now n) (n_prev n) rh then Some (n_prev n) else None).
  assert (Hk : forall k, sel = Some k -> (k = n_cur n \/ k = n_prev n) /\ n_now n < k_valid_till k /\ c_eph P (k_serial k) = rh).
  { assert (Hkm : forall k, key_matches P (n_now n) k rh = true -> n_now n < k_valid_till k /\ c_eph P (k_serial k) = rh).
    { intros k Hk. unfold key_matches in Hk. apply andb_prop in Hk. destruct Hk as [A B]. apply bytes_eqb_true in B. split; [|exact B]. unfold timed_out in A. lia. }
    intros k Ek. unfold sel in Ek. destruct (key_matches P (n_now n) (n_cur n) rh) eqn:E1.
    - injection Ek as <-. split; [left; reflexivity | exact (Hkm _ E1)].
    - destruct (key_matches P (n_now n) (n_prev n) rh) eqn:E2; [|discriminate]. injection Ek as <-. split; [right; reflexivity | exact (Hkm _ E2)]. }
  fold sel in H. destruct sel as [k|]; [|apply ret_ok in H; destruct H as [_ ->]; left; apply nd_refl].
  destruct (Hk k eq_refl) as (Hk1 & Hk2 & Hk3). clear Hk. subst rh.
  destruct (N.eqb_spec (w_type w) 2) as [Ety|Ety].
  - unfold finish_handshake in H. bind H as p m H1. apply rd_ok in H1. destruct H1 as [Hf ->].
    destruct (get_method_by_name_list _ _) as [method|] eqn:Em; [|left; apply (kp_send_error T q _ _ _ _ _ _ H); reflexivity].
    destruct (c_shared P true (k_serial k) (p_key p) hk) as [[sigma key]|] eqn:Esh; [|apply ret_ok in H; destruct H as [_ ->]; left; apply nd_refl].
    destruct (bytes_eqb (c_mac P key tlv0) mac) eqn:Ebm; cbn [negb] in H; [|apply ret_ok in H; destruct H as [_ ->]; left; apply nd_refl].
    apply bytes_eqb_true in Ebm. bind H as ok m1 H1.
    destruct (establish_down T _ _ _ _ _ _ _ _ _ _ _ _ _ _ _ H1 Ii) as [[K _] | [(p0 & Hp0 & Hs) X]].
    + left. apply (nd_trans _ _ _ _ K). unfold when in H. destruct ok; [|apply ret_ok in H; destruct H as [_ ->]; apply nd_refl].
      bind H as p1 m2 H2. apply rd_ok in H2. destruct H2 as [_ ->]. apply (kp_send_packet T q _ _ _ _ _ _ _ H); [reflexivity | discriminate].
    + right. split; [|exact X]. rewrite Hf in Hp0. injection Hp0 as <-. exists p. split; [exact Hf|].
      exists true, hk, key, sigma, k, mac, tlv0. repeat (split; [assumption|]). assumption.
  - destruct (N.eqb_spec (w_type w) 3) as [Ety3|Ety3]; [|apply ret_ok in H; destruct H as [_ ->]; left; apply nd_refl].
    unfold handle_finish_handshake in H. bind H as p m H1. apply rd_ok in H1. destruct H1 as [Hf ->].
    destruct (get_method_by_name _ _) as [method|] eqn:Em; [|left; apply (kp_send_error T q _ _ _ _ _ _ H); reflexivity].
    bind H as c m1 H1. pose proof (kp_update_shared T _ _ _ _ _ _ _ H1) as K1.
    apply (update_shared_to P (EvMaintenance)) in H1; [|exact I]. destruct H1 as (_ & Kt & _ & Hc).
    destruct c as [c|]; [|apply ret_ok in H; destruct H as [_ ->]; left; apply K1]. specialize (Hc c eq_refl p Hf).
    destruct (bytes_eqb (c_mac P (hc_key c) tlv0) mac) eqn:Ebm; cbn [negb] in H; [|apply ret_ok in H; destruct H as [_ ->]; left; apply K1].
    apply bytes_eqb_true in Ebm. bind H as ok m2 H2.
    destruct (establish_down T _ _ _ _ _ _ _ _ _ _ _ _ _ _ _ H2 (proj2 (proj2 K1) Ii)) as [[K _] | [(p0 & Hp0 & Hs) X]].
    + left. apply (nd_trans _ _ _ _ (proj1 K1)). apply (nd_trans _ _ _ _ K). apply (kp_wr T) in H; [apply H | intros y; reflexivity].
    + right. split.
      * destruct (Kt p0 Hp0) as (p1 & Hp1 & E). rewrite Hf in Hp1. injection Hp1 as <-. exists p. split; [exact Hf|].
        assert (Es : p_serial p0 = p_serial p) by (unfold kf in E; congruence). rewrite Es in Hs.
        exists false, hk, (hc_key c), (hc_sigma c), k, mac, tlv0. repeat (split; [assumption|]). assumption.
      * destruct (N.eq_dec q T) as [Hq | Hq]; [left; exact Hq|]. destruct X as [X | (p1 & A & B)]; [left; exact X|]. right. exists p1.
        rewrite <- (proj1 (proj2 K1) Hq). split; [exact A | exact B].
Qed.
