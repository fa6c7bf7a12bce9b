(** Proofs about L2TP offloading: after a lost message *)
From Coq Require Import List NArith Bool Lia ZifyBool ZifyN ZifyNat.
From Verif Require Import L2tpModel L2tpSpec L2tpProofs L2tpProofs5.
Import ListNotations.
Local Open Scope N_scope.

Definition par {A} (m : M A) (s : st) (Q : A -> st -> Prop) : Prop := match m s with Done a s' => Q a s' | _ => True end.
Lemma par_bind : forall A B (m : M A) (f : A -> M B) s Q, par m s (fun a s' => par (f a) s' Q) -> par (bind m f) s Q.
Proof. intros A B m f s Q H. unfold par, bind in *. destruct (m s); try exact I. exact H. Qed.
Lemma par_imp : forall A (m : M A) s (P Q : A -> st -> Prop), par m s P -> (forall a s', P a s' -> Q a s') -> par m s Q.
Proof. intros A m s P Q H K. unfold par in *. destruct (m s); auto. Qed.
Lemma par_then : forall A B (m : M A) (f : A -> M B) s (P : A -> st -> Prop) Q, par m s P -> (forall a s', P a s' -> par (f a) s' Q) -> par (bind m f) s Q.
Proof. intros. apply par_bind. eapply par_imp; eauto. Qed.

(** ** Nothing happens to the messages and the peers *)
Definition still (s s' : st) : Prop := s_queue s' = s_queue s /\ s_seq s' = s_seq s /\ s_peers s' = s_peers s /\ s_skerr s' = s_skerr s.
Definition quiet {A} (m : M A) : Prop := forall s, par m s (fun _ s' => still s s').
Lemma still_refl : forall s, still s s. Proof. intros s. unfold still. auto. Qed.
Lemma still_trans : forall a b c, still a b -> still b c -> still a c.
Proof. intros a b c (A1 & A2 & A3 & A4) (B1 & B2 & B3 & B4). unfold still. repeat split; congruence. Qed.
Lemma quiet_bind : forall A B (m : M A) (f : A -> M B), quiet m -> (forall a, quiet (f a)) -> quiet (bind m f).
Proof. intros A B m f H K s. eapply par_then; [apply H|]. cbn beta. intros a s1 S1. eapply par_imp; [apply K|]. cbn beta. intros _ s2. apply still_trans. exact S1. Qed.
Lemma quiet_ret : forall A (a : A), quiet (ret a). Proof. intros A a s. apply still_refl. Qed.
Lemma quiet_get : quiet get. Proof. intros s. apply still_refl. Qed.
Lemma quiet_peer : forall n, quiet (get_peer n). Proof. intros n s. apply still_refl. Qed.
Lemma quiet_ask : quiet ask. Proof. intros s. unfold par, ask. destruct (s_ans s); unfold still; auto. Qed.
Lemma quiet_put : forall f, (forall s, still s (f s)) -> quiet (put f). Proof. intros f H s. apply H. Qed.
Lemma quiet_fail : forall A (m : M A), (forall s a s', m s <> Done a s') -> quiet m.
Proof. intros A m H s. unfold par. specialize (H s). destruct (m s) as [a s'| | | | | |]; try exact I. destruct (H a s' eq_refl). Qed.
Ltac quiet := repeat first [ apply quiet_bind; [|intro] | apply quiet_ret | apply quiet_get | apply quiet_peer | apply quiet_ask
  | apply quiet_put; intro; unfold still; auto; fail | apply quiet_fail; discriminate
  | match goal with |- quiet (match ?x with _ => _ end) => destruct x end ].

Lemma quiet_close : forall id, quiet (socket_close id).
Proof. intros id. unfold socket_close, close_fd. quiet. Qed.
Lemma quiet_connect : forall id a, quiet (connect_socket id a).
Proof. intros id a. unfold connect_socket, exit_bug. quiet. Qed.
Lemma quiet_open : forall ip port k, quiet (open_socket ip port k).
Proof. intros ip port k. unfold open_socket, open_fd, fresh. quiet. Qed.
Lemma quiet_offload : forall par local, quiet (socket_open_offload par local).
Proof. intros p local. unfold socket_open_offload. quiet; apply quiet_open. Qed.
Lemma quiet_dynamic : forall c p ip, quiet (socket_open c p ip).
Proof. intros c p ip. unfold socket_open. quiet; apply quiet_open. Qed.
Lemma quiet_mtu : forall n m, quiet (set_mtu n m).
Proof. intros n m. unfold set_mtu. quiet. Qed.
Lemma quiet_update : forall p e, quiet (update_session p e).
Proof. intros p e. unfold update_session. quiet; apply quiet_connect. Qed.

(** ** Netlink, with old messages waiting *)

Lemma quiet_failure : forall b, quiet (failure b).
Proof. intros b. unfold failure. destruct b; quiet. Qed.

Definition nl {A} (k : N) (m : M A) (Q : A -> Prop) : Prop := forall s, behind s -> s_seq s + k < 2 ^ 32 ->
  par m s (fun a s' => behind s' /\ s_seq s' <= s_seq s + k /\ s_peers s' = s_peers s /\ Q a).
Lemma still_behind : forall s s', still s s' -> behind s -> behind s'.
Proof. intros s s' (A & B & _ & _) (C & D). unfold behind. rewrite A, B. auto. Qed.
Lemma nl_quiet : forall A (m : M A), quiet m -> nl 0 m (fun _ => True).
Proof. intros A m H s Bh L. eapply par_imp; [apply H|]. cbn beta. intros _ s' St. split; [eapply still_behind; eassumption|]. destruct St as (_ & E & P & _). rewrite E. split; [lia | auto]. Qed.
Lemma nl_bind : forall A B k1 k2 (m : M A) (f : A -> M B) P Q, nl k1 m P -> (forall a, P a -> nl k2 (f a) Q) -> nl (k1 + k2) (bind m f) Q.
Proof.
  intros A B k1 k2 m f P Q H K s Bh L. eapply par_then; [apply H; [exact Bh | lia]|]. cbn beta. intros a s1 (B1 & L1 & P1 & Q1).
  eapply par_imp; [apply K; [exact Q1 | exact B1 | lia]|]. cbn beta. intros a' s2 (B2 & L2 & P2 & Q2). split; [exact B2|]. split; [lia|]. split; [congruence | exact Q2].
Qed.
Lemma nl_bindq : forall A B k (m : M A) (f : A -> M B) Q, quiet m -> (forall a, nl k (f a) Q) -> nl k (bind m f) Q.
Proof. intros A B k m f Q H K. apply (nl_bind A B 0 k m f (fun _ => True)); [apply nl_quiet; exact H | auto]. Qed.
Lemma nl_ret : forall A k (a : A) (Q : A -> Prop), Q a -> nl k (ret a) Q.
Proof. intros A k a Q H s Bh L. cbn. split; [exact Bh|]. split; [lia | auto]. Qed.
Lemma nl_le : forall A k1 k2 (m : M A) (P Q : A -> Prop), k1 <= k2 -> (forall a, P a -> Q a) -> nl k1 m P -> nl k2 m Q.
Proof. intros A k1 k2 m P Q Lk H K s Bh L. eapply par_imp; [apply K; [exact Bh | lia]|]. cbn beta. intros a s' (B1 & B2 & B3 & B4). split; [exact B1|]. split; [lia | auto]. Qed.

(** The answer to an earlier request is taken for that to the present one, which fails *)
Lemma do_nl_behind : forall c r s, behind s -> s_seq s + 1 < 2 ^ 32 ->
  par (do_nl c r) s (fun x s' => behind s' /\ s_seq s' = s_seq s + 1 /\ s_peers s' = s_peers s /\ snd x = None /\ (fst x = false -> s_errno s' = EPROTO)).
Proof.
  intros c r s (Ne & Sq) L. unfold do_nl. apply par_bind. cbn [put par]. apply par_bind. cbn [get par].
  set (s0 := set_seq _ s).
  assert (Es : s_seq s0 = s_seq s + 1) by (cbn; rewrite N.mod_small; lia).
  assert (Eq : s_queue s0 = s_queue s) by reflexivity. assert (Ep : s_peers s0 = s_peers s) by reflexivity. clearbody s0.
  apply par_bind. eapply par_imp; [apply (quiet_failure (c_reliable c) s0)|]. cbn beta. intros a s1 (S1 & S2 & S3 & _).
  destruct (negb (a =? 0)).
  { cbn. unfold behind. cbn. split; [|repeat split; try discriminate; congruence]. split; [congruence|]. intros m Hm. rewrite S1, Eq in Hm. specialize (Sq m Hm). rewrite S2, Es. lia. }
  assert (Hand : par (handle c (s_seq s0) r) s1 (fun _ s2 => s_seq s2 = s_seq s + 1 /\ s_peers s2 = s_peers s /\
     exists q, s_queue s2 = s_queue s ++ q /\ (forall m, In m q -> m_seq m = s_seq s + 1) /\ (q = [] -> s_skerr s2 <> 0) )).
  { unfold handle. eapply par_then; [apply (quiet_ask s1)|]. cbn beta. intros a1 s2 T2. eapply par_then; [apply (quiet_ask s2)|]. cbn beta. intros n1 s3 T3.
    apply par_bind. cbn [get par]. destruct (kernel r a1 n1 (s_fds s3) (s_tuns s3)) as [[e d] l]. eapply par_then; [apply (quiet_failure (c_reliable c) s3)|]. cbn beta. intros lost s4 T4.
    pose proof (still_trans _ _ _ T2 (still_trans _ _ _ T3 T4)) as (U1 & U2 & U3 & _).
    apply par_bind. cbn [put par]. apply par_bind. cbn [put par]. destruct (lost =? 0); cbn [put par s_seq s_peers s_queue s_skerr set_queue set_tuns set_skerr].
    - split; [congruence|]. split; [congruence|]. rewrite <- app_assoc. eexists. split; [rewrite U1, S1, Eq; reflexivity|]. split.
      + intros m Hm. apply in_app_or in Hm. destruct Hm as [Hm|[<-|[]]]; [|exact Es]. destruct d; [destruct Hm as [<-|[]]; exact Es | destruct Hm].
      + intros X. destruct (app_cons_not_nil _ _ _ (eq_sym X)).
    - split; [congruence|]. split; [congruence|]. eexists. split; [rewrite U1, S1, Eq; reflexivity|]. split; [|discriminate].
      intros m Hm. destruct d; [destruct Hm as [<-|[]]; exact Es | destruct Hm]. }
  eapply par_then; [exact Hand|]. cbn beta. intros _ s2 (V1 & V2 & q & V3 & V4 & V5). apply par_bind. cbn [get par].
  assert (In2 : forall m, In m (s_queue s2) -> 0 < m_seq m <= s_seq s + 1).
  { intros m Hm. rewrite V3 in Hm. apply in_app_or in Hm. destruct Hm as [Hm|Hm]; [specialize (Sq m Hm) | specialize (V4 m Hm)]; lia. }
  assert (Ne2 : s_queue s2 <> []) by (rewrite V3; destruct (s_queue s); [congruence | discriminate]).
  destruct (s_queue s) as [|m0 q0] eqn:Q0; [congruence|]. cbn [app] in V3. rewrite V3. cbn [receive].
  apply par_bind. eapply par_imp; [apply (quiet_failure (c_reliable c) s2)|]. cbn beta. intros a3 s3 (W1 & W2 & W3 & W4). apply par_bind. cbn [get par].
  assert (Bh : forall z, s_queue z = m0 :: q0 ++ q -> s_seq z = s_seq s + 1 -> behind z).
  { intros z Z1 Z2. unfold behind. rewrite Z1, Z2. split; [discriminate|]. rewrite <- V3. exact In2. }
  destruct (negb (a3 =? 0)).
  { cbn. split; [apply Bh; cbn; congruence|]. repeat split; try discriminate; congruence. }
  destruct (negb (s_skerr s3 =? 0)) eqn:Ek.
  { cbn. split; [apply Bh; cbn; congruence|]. repeat split; try discriminate; congruence. }
  assert (Bad : seq_ok m0 (s_seq s0) = false).
  { unfold seq_ok. specialize (Sq m0 (or_introl eq_refl)). rewrite Es. lia. }
  rewrite Bad. cbn. split; [|repeat split; congruence].
  unfold behind. cbn. split.
  - intros X. destruct q0; [|discriminate]. cbn in X. subst q. specialize (V5 eq_refl). lia.
  - intros m Hm. rewrite W2, V1. apply In2. rewrite V3. right. exact Hm.
Qed.

Lemma nl_do : forall c r, nl 1 (do_nl c r) (fun x => snd x = None).
Proof.
  intros c r s Bh L. eapply par_imp; [apply do_nl_behind; assumption|]. cbn beta. intros x s' (A & B & C & D & _). split; [exact A|]. split; [lia | auto].
Qed.
Lemma nl_call : forall A c r (f : bool * option N -> A) (Q : A -> Prop), (forall b, Q (f (b, None))) -> nl 1 (bind (do_nl c r) (fun x => ret (f x))) Q.
Proof.
  intros A c r f Q H. apply (nl_bind _ _ 1 0 _ _ (fun x => snd x = None)); [apply nl_do|]. intros [b o] E. cbn in E. subst o. apply nl_ret. apply H.
Qed.
Lemma nl_tunnel : forall c fd fuel, nl 1 (create_tunnel c fd fuel) (fun _ => True).
Proof.
  intros c fd fuel. induction fuel as [|fuel IH]; [intros s _ _; exact I|]. cbn [create_tunnel]. apply nl_bindq; [unfold new_conn_id; quiet|].
  intros id. destruct (id =? 0); [exact IH|]. intros s Bh L. unfold tunnel_create. apply par_bind, par_bind. eapply par_imp; [apply do_nl_behind; assumption|].
  cbn beta. intros x s1 (B1 & B2 & B3 & B4 & B5). cbn [ret par].
  assert (Ok : forall A (a : A), par (ret a) s1 (fun _ s' => behind s' /\ s_seq s' <= s_seq s + 1 /\ s_peers s' = s_peers s /\ True)).
  { intros A a. cbn. split; [exact B1|]. split; [lia | auto]. }
  destruct (fst x); [apply Ok|]. apply par_bind. cbn [get par]. rewrite (B5 eq_refl). cbn. split; [exact B1|]. split; [lia | auto].
Qed.
Lemma nl_free : forall c k conn del, nl 1 (free_offload_session c k conn del) (fun _ => True).
Proof.
  intros c k conn del. unfold free_offload_session. destruct k as [id|]; [|apply nl_ret; exact I].
  apply (nl_bind _ _ 1 0 _ _ (fun _ => True)); [|intros _ _; apply nl_quiet, quiet_close].
  destruct del; [|apply nl_ret; exact I]. apply (nl_bind _ _ 1 0 _ _ (fun _ => True)); [|intros _ _; apply nl_ret; exact I].
  unfold session_delete. apply nl_call. auto.
Qed.
(** No session can be started *)
Lemma nl_init : forall c n p, nl 4 (init_session c n p) (fun o => o = None).
Proof.
  intros c n p. unfold init_session. destruct (p_sock p) as [parent|]; [|intros s _ _; exact I].
  destruct (c_name c n) as [name|]; [|apply nl_ret; reflexivity].
  apply nl_bindq; [apply quiet_offload|].
  assert (Fin : forall k conn del, nl 1 (bind (free_offload_session c k conn del) (fun _ => ret (@None session))) (fun o => o = None)).
  { intros k conn del. apply (nl_bind _ _ 1 0 _ _ (fun _ => True)); [apply nl_free|]. intros _ _. apply nl_ret. reflexivity. }
  assert (Up : forall k (m : M (option session)), 1 <= k -> nl 1 m (fun o => o = None) -> nl k m (fun o => o = None)) by (intros k m Lk H; apply (nl_le _ 1 k m (fun o => o = None) (fun o => o = None) Lk (fun a E => E) H)).
  intros [id|]; [|apply Up; [lia | apply Fin]].
  apply nl_bindq; [apply quiet_connect|]. intros ok. destruct (negb ok); [apply Up; [lia | apply Fin]|].
  apply nl_bindq; [apply quiet_get|]. intros s0.
  apply (nl_bind _ _ 1 3 _ _ (fun _ => True)); [unfold new_tunnel; apply nl_bindq; [apply quiet_get | intros s1; apply nl_tunnel]|].
  intros [conn|] _; [|apply Up; [lia | apply Fin]].
  apply (nl_bind _ _ 1 2 _ _ (fun _ => True)); [apply nl_call; auto|]. intros ok2 _. destruct (negb ok2); [apply Up; [lia | apply Fin]|].
  apply (nl_bind _ _ 1 1 _ _ (fun f => f = None)).
  - unfold session_get_ifname. apply (nl_bind _ _ 1 0 _ _ (fun x => snd x = None)); [apply nl_do|]. intros x E. destruct (negb (fst x)); [apply nl_ret; reflexivity|]. rewrite E. apply nl_ret. reflexivity.
  - intros f ->. apply Fin.
Qed.

(** ** Peers *)

Definition stuck {A} (k : N) (m : M A) : Prop := forall s, behind s -> s_seq s + k < 2 ^ 32 ->
  par m s (fun _ s' => behind s' /\ s_seq s' <= s_seq s + k /\ forall n e, live s' n e -> live s n e).
Lemma stuck_bind : forall A B k1 k2 (m : M A) (f : A -> M B), stuck k1 m -> (forall a, stuck k2 (f a)) -> stuck (k1 + k2) (bind m f).
Proof.
  intros A B k1 k2 m f H K s Bh L. eapply par_then; [apply H; [exact Bh | lia]|]. cbn beta. intros a s1 (B1 & L1 & P1).
  eapply par_imp; [apply K; [exact B1 | lia]|]. cbn beta. intros a' s2 (B2 & L2 & P2). split; [exact B2|]. split; [lia | auto].
Qed.
Lemma stuck_nl : forall A k (m : M A) Q, nl k m Q -> stuck k m.
Proof. intros A k m Q H s Bh L. eapply par_imp; [apply H; assumption|]. cbn beta. intros a s' (B1 & B2 & B3 & _). split; [exact B1|]. split; [exact B2|]. unfold live. rewrite B3. auto. Qed.
Lemma stuck_quiet : forall A k (m : M A), quiet m -> stuck k m.
Proof. intros A k m H. eapply stuck_nl. eapply nl_le; [| |apply nl_quiet; exact H]; [lia | intros a X; exact X]. Qed.
Lemma stuck_bindq : forall A B k (m : M A) (f : A -> M B), quiet m -> (forall a, stuck k (f a)) -> stuck k (bind m f).
Proof. intros A B k m f H K. apply (stuck_bind _ _ 0 k); [apply stuck_quiet; exact H | exact K]. Qed.
Lemma stuck_le : forall A k1 k2 (m : M A), k1 <= k2 -> stuck k1 m -> stuck k2 m.
Proof. intros A k1 k2 m Lk K s Bh L. eapply par_imp; [apply K; [exact Bh | lia]|]. cbn beta. intros a s' (B1 & B2 & B3). split; [exact B1|]. split; [lia | auto]. Qed.
Lemma stuck_fail : forall A k (m : M A), (forall s a s', m s <> Done a s') -> stuck k m.
Proof. intros A k m H. apply stuck_quiet, quiet_fail. exact H. Qed.

(** A peer is changed, but gets no session *)
Lemma upd_live : forall n p s m e, p_off p = p_off (s_peers s n) \/ p_off p = None -> live (set_peers (upd (s_peers s) n p) s) m e -> live s m e.
Proof.
  intros n p s m e H. unfold live. cbn [s_peers set_peers]. unfold upd. destruct (N.eqb_spec m n) as [->|]; [|auto]. destruct H as [H|H]; rewrite H; [auto | discriminate].
Qed.
Lemma stuck_modify : forall A n (g : peer -> peer) (m : peer -> M A) k, (forall p, p_off (g p) = p_off p \/ p_off (g p) = None) -> (forall p, stuck k (m p)) ->
  stuck k (bind (get_peer n) (fun p => bind (put_peer n (g p)) (fun _ => m p))).
Proof.
  intros A n g m k H K s Bh L. apply par_bind. cbn [get_peer par]. apply par_bind. unfold put_peer. cbn [put par].
  eapply par_imp; [apply K; [exact Bh | exact L]|]. cbn beta. intros _ s' (B1 & B2 & B3). split; [exact B1|]. split; [exact B2|].
  intros m' e Lv. apply B3 in Lv. eapply upd_live; [|exact Lv]. apply H.
Qed.
Lemma stuck_modify0 : forall n (g : peer -> peer) k, (forall p, p_off (g p) = p_off p \/ p_off (g p) = None) -> stuck k (bind (get_peer n) (fun p => put_peer n (g p))).
Proof.
  intros n g k H s Bh L. apply par_bind. cbn [get_peer par]. unfold put_peer. cbn [put par]. split; [exact Bh|]. split; [cbn; lia|].
  intros m' e Lv. eapply upd_live; [|exact Lv]. apply H.
Qed.

Lemma stuck_free_socket : forall n, stuck 0 (free_socket n).
Proof.
  intros n s Bh L. unfold free_socket. apply par_bind. cbn [get_peer par]. destruct (p_sock (s_peers s n)) as [id|].
  2: { cbn. split; [exact Bh|]. split; [lia | auto]. }
  apply par_bind. cbn [get par]. destruct (s_heap s id) as [so|]; [|exact I].
  assert (Q : quiet (match so_kind so with Static => ret tt | Dynamic q => if q =? n then socket_close id else exit_bug | Offload _ => exit_bug end)).
  { destruct (so_kind so) as [|q|q]; [quiet | destruct (q =? n); [apply quiet_close|] |]; apply quiet_fail; discriminate. }
  eapply par_then; [apply Q|]. cbn beta. intros _ s1 St. unfold put_peer. cbn [put par]. pose proof St as (S1 & S2 & S3 & S4).
  pose proof (still_behind _ _ St Bh) as B1. split; [exact B1|]. split; [cbn; lia|].
  intros m e Lv. unfold live. rewrite <- S3. eapply (upd_live n _ s1); [|exact Lv]. left. rewrite S3. reflexivity.
Qed.
Lemma stuck_reset : forall c n, stuck 1 (reset_peer c n).
Proof.
  intros c n. unfold reset_peer. apply (stuck_bind _ _ 0 1); [apply stuck_free_socket|]. intros _.
  apply (stuck_modify _ n (fun p => mk_peer (p_sock p) (0, 0) 0 false (p_off p)) (fun p => match p_off p with Some e => bind (free_session c e) (fun _ => bind (get_peer n) (fun p => put_peer n (with_off None p))) | None => ret tt end)); [auto|].
  intros p. destruct (p_off p) as [e|]; [|apply stuck_quiet; quiet]. apply (stuck_bind _ _ 1 0); [eapply stuck_nl, nl_free|]. intros _. apply stuck_modify0. auto.
Qed.
Lemma stuck_established : forall c n off, stuck 5 (set_established c n off).
Proof.
  intros c n off. rewrite set_established_eq. apply stuck_bindq; [apply quiet_peer|]. intros p.
  apply (stuck_bind _ _ 1 4).
  - destruct (p_off p) as [e|]; [|apply stuck_quiet; quiet]. apply stuck_bindq; [destruct off; [apply quiet_update | quiet]|].
    intros [|]; [apply stuck_quiet; quiet|]. apply (stuck_bind _ _ 1 0); [eapply stuck_nl, nl_free|]. intros _. apply stuck_modify0. auto.
  - intros _. unfold tail. apply stuck_bindq; [apply quiet_peer|]. intros p1.
    assert (Last : forall b : bool, stuck 0 (if negb b then ret false else bind (get_peer n) (fun p => bind (put_peer n (set_est p)) (fun _ => ret true)))).
    { intros [|]; cbn [negb]; [|apply stuck_quiet; quiet]. apply (stuck_modify _ n set_est (fun _ => ret true)); [auto|]. intros _. apply stuck_quiet. quiet. }
    apply (stuck_bind _ _ 4 0); [|exact Last].
    destruct off; [|apply stuck_quiet; quiet]. destruct (p_off p1); [apply stuck_quiet; quiet|].
    apply (stuck_nl _ 4 _ (fun _ => True)). apply (nl_bind _ _ 4 0 _ _ (fun o => o = None)); [apply nl_init|]. intros o ->. apply nl_ret. exact I.
Qed.
Lemma stuck_claim : forall n sk local remote, stuck 0 (claim_address n sk local remote).
Proof.
  intros n sk local remote. unfold claim_address.
  apply (stuck_modify _ n (fun p => mk_peer (p_sock p) (p_local p) remote (p_est p) (p_off p)) (fun p => bind (match sk with
   | None => ret tt
   | Some id => bind get (fun s => match s_heap s id with
       | None => fun _ => Wild
       | Some so => match so_kind so with
           | Static => if match p_sock p with Some k => k =? id | None => false end then ret tt
               else bind (free_socket n) (fun _ => bind (get_peer n) (fun p => put_peer n (with_sock (Some id) p)))
           | _ => ret tt
           end
       end)
   end) (fun _ => match local with None => ret tt | Some a => bind (get_peer n) (fun p => put_peer n (mk_peer (p_sock p) a (p_addr p) (p_est p) (p_off p))) end))); [auto|].
  intros p. apply (stuck_bind _ _ 0 0).
  - destruct sk as [id|]; [|apply stuck_quiet; quiet]. apply stuck_bindq; [apply quiet_get|]. intros s0. destruct (s_heap s0 id) as [so|]; [|apply stuck_fail; discriminate].
    destruct (so_kind so); try (apply stuck_quiet; quiet; fail). destruct (match p_sock p with Some k => k =? id | None => false end); [apply stuck_quiet; quiet|].
    apply (stuck_bind _ _ 0 0); [apply stuck_free_socket|]. intros _. apply stuck_modify0. auto.
  - intros _. destruct local as [a|]; [|apply stuck_quiet; quiet]. apply stuck_modify0. auto.
Qed.
Lemma stuck_reset_socket : forall c n v6 ip, stuck 0 (reset_socket c n v6 ip).
Proof.
  intros c n v6 ip. unfold reset_socket. apply stuck_bindq; [apply quiet_peer|]. intros p. destruct (p_addr p =? 0); [apply stuck_free_socket|].
  apply stuck_bindq; [apply quiet_get|]. intros s0. destruct (negb _); [apply stuck_quiet; quiet|]. apply (stuck_bind _ _ 0 0); [apply stuck_free_socket|]. intros _.
  apply stuck_bindq; [destruct (if v6 then _ else _); [quiet | apply quiet_dynamic]|]. intros k. apply stuck_modify0. auto.
Qed.
Lemma stuck_op : forall c o, stuck 6 (do_op c o).
Proof.
  intros c o. destruct o as [id local remote n off ok|n remote v6 ip|n|t ses add]; cbn [do_op].
  - unfold on_packet. apply stuck_bindq; [apply quiet_get|]. intros s0. destruct (s_heap s0 id) as [so|]; [|apply stuck_quiet; quiet].
    destruct (_ || _); [apply stuck_quiet; quiet|]. destruct (s_heap s0 _) as [so'|]; [|apply stuck_fail; discriminate].
    destruct (match so_kind so' with Dynamic q => negb (q =? n) | _ => false end); [apply stuck_quiet; quiet|].
    apply (stuck_bind _ _ 0 6); [apply stuck_claim|]. intros _. destruct (negb ok); [apply (stuck_le _ 1 6); [lia | apply stuck_reset]|].
    apply (stuck_bind _ _ 5 1); [apply stuck_established|]. intros [|]; [apply stuck_quiet; quiet | apply stuck_reset].
  - apply stuck_bindq; [apply quiet_peer|]. intros p. destruct (p_est p); [apply stuck_quiet; quiet|]. apply (stuck_le _ 0 6); [lia|].
    apply (stuck_bind _ _ 0 0); [apply stuck_claim | intros _; apply stuck_reset_socket].
  - apply (stuck_le _ 1 6); [lia | apply stuck_reset].
  - apply stuck_quiet. destruct add; quiet.
Qed.
Lemma stuck_ops : forall c l, stuck (6 * N.of_nat (length l)) (do_ops c l).
Proof.
  intros c l. induction l as [|o l IH]; [apply stuck_quiet; quiet|]. cbn [do_ops length].
  apply (stuck_le _ (6 + 6 * N.of_nat (length l))); [lia|]. apply stuck_bind; [apply stuck_op | intros _; exact IH].
Qed.
Theorem stuck_spec : forall c l s s', behind s -> s_seq s + 6 * N.of_nat (length l) < 2 ^ 32 -> do_ops c l s = Done tt s' ->
  behind s' /\ forall n e, live s' n e -> live s n e.
Proof.
  intros c l s s' Bh L E. pose proof (stuck_ops c l s Bh L) as H. unfold par in H. rewrite E in H. tauto.
Qed.
