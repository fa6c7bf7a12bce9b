(** Proofs about L2TP offloading: establishing peers *)
From Coq Require Import List NArith Bool Lia ZifyBool ZifyN.
From Verif Require Import L2tpModel L2tpSpec L2tpProofs L2tpProofs2 L2tpProofs3 L2tpProofs4.
Import ListNotations.
Local Open Scope N_scope.

Definition set_est (p : peer) : peer := mk_peer (p_sock p) (p_local p) (p_addr p) true (p_off p).
Definition tail (c : config) (n : N) (off : bool) : M bool :=
  bind (get_peer n) (fun p =>
  bind (match off, p_off p with
         | true, None =>
             bind (init_session c n p) (fun o =>
             match o with
             | None => ret false
             | Some e => bind (get_peer n) (fun p => bind (put_peer n (with_off (Some e) p)) (fun _ => ret true))
             end)
         | _, _ => ret true
         end) (fun ok =>
  if negb ok then ret false
  else bind (get_peer n) (fun p => bind (put_peer n (set_est p)) (fun _ => ret true)))).
Lemma set_established_eq : forall c n off, set_established c n off =
  bind (get_peer n) (fun p =>
  bind (match p_off p with
   | Some e =>
       bind (if off then update_session p e else ret false) (fun keep =>
       if keep then ret tt
       else bind (free_session c e) (fun _ => bind (get_peer n) (fun p => put_peer n (with_off None p))))
   | None => ret tt
   end) (fun _ => tail c n off)).
Proof. reflexivity. Qed.

Lemma upd_upd : forall A (f : N -> A) k v w x, upd (upd f k v) k w x = upd f k w x.
Proof. intros A f k v w x. unfold upd. destruct (x =? k); reflexivity. Qed.

(** The peers may be given by another function with the same values *)
Lemma good_peers_ext : forall c b xp s f, (forall m, f m = s_peers s m) -> good c b xp s -> good c b xp (set_peers f s).
Proof.
  intros c b xp s f E H. destruct H as [g_fresh0 g_heap0 g_fds0 g_nodup0 g_static0 g_dyn0 g_offs0 g_sock0 g_live0 g_one0 g_acc0 g_excl0 g_est0 g_par0 g_tun0 g_work0].
  assert (Live : forall m e, live (set_peers f s) m e <-> live s m e) by (intros m e; unfold live; cbn; rewrite E; tauto).
  constructor; unfold fresh_ok, static_at, dynamic_at, no_static, calm in *; cbn [s_fds s_next s_heap s_peers s_tuns s_queue s_skerr set_peers] in *; try assumption.
  - intros i so m. rewrite E. apply g_dyn0.
  - intros i so par A B. destruct (g_offs0 i so par A B) as (m & e & X & Y). exists m, e. rewrite Live. auto.
  - intros m i. rewrite E. apply g_sock0.
  - intros m e. rewrite Live. apply g_live0.
  - intros m1 m2 e1 e2. rewrite !Live. apply g_one0.
  - intros m e D. rewrite Live, E. apply g_est0; exact D.
  - intros X m e so par ip D. rewrite Live, E. apply g_par0; assumption.
  - intros t g A B. destruct (g_tun0 t g A B) as (m & e & X & Y). exists m, e. rewrite Live. auto.
  - intros R. destruct (g_work0 R) as (W1 & W2 & W3 & W4 & W5). split; [exact W1|]. split; [exact W2|]. split; [exact W3|]. split.
    + intros m e. rewrite Live. apply W4.
    + intros m e D. rewrite Live. unfold connected. cbn [s_peers s_fds set_peers]. rewrite E. apply W5; exact D.
Qed.

Lemma tail_new : forall c b n local s, good c b (Some n) s -> ready c n local s -> (forall e, ~ live s n e) ->
  runs (tail c n true) s (fun r s' => if r then good c b None s' else good c b (Some n) s').
Proof.
  intros c b n local s G R Nl. unfold tail. apply runs_get_peer.
  assert (Eo : p_off (s_peers s n) = None) by (destruct (p_off (s_peers s n)) as [e|] eqn:E; [destruct (Nl e E) | reflexivity]).
  rewrite Eo. destruct (r_sock _ _ _ _ R) as (k & so & Hk & Hso & _).
  apply runs_bind. eapply runs_then; [apply (init_effect c n (s_peers s n) k s (g_fresh _ _ _ _ G) Hk); [congruence | exact (r_addr _ _ _ _ R)]|].
  intros o s1 P. destruct o as [e|].
  - apply runs_get_peer. unfold put_peer. apply runs_put, runs_ret. cbn [negb]. apply runs_get_peer. apply runs_put, runs_ret.
    pose proof (good_init c b n local e s s1 k G R Nl Hk P) as X. destruct P as ((_ & _ & M3 & _) & _).
    cbn [s_peers set_peers]. rewrite upd_same, M3 in *. 
    refine (good_peers_ext _ _ _ _ (upd (upd (s_peers s) n (with_off (Some e) (s_peers s n))) n (set_est (with_off (Some e) (s_peers s n)))) _ X).
    intros m. apply upd_upd.
  - apply runs_ret. cbn [negb]. apply runs_ret. apply (good_none c b (Some n) s s1 G P).
Qed.
Lemma tail_plain : forall c b n s, good c b (Some n) s -> (forall e, ~ live s n e) ->
  runs (tail c n false) s (fun r s' => if r then good c b None s' else good c b (Some n) s').
Proof.
  intros c b n s G Nl. unfold tail. apply runs_get_peer. apply runs_bind, runs_ret. cbn [negb]. apply runs_get_peer. unfold put_peer. apply runs_put, runs_ret.
  apply (good_strengthen c b n); [apply good_peer; [exact G | reflexivity | reflexivity]|].
  intros e. unfold live. cbn [s_peers set_peers]. rewrite upd_same. cbn. apply Nl.
Qed.

(** The session stays, its socket is connected again *)
Lemma good_keep : forall c b n e so ip s, good c b (Some n) s -> ready c n (ip, so_port so) s -> live s n e -> s_heap s (e_sock e) = Some so -> so_ip so = Some ip ->
  good c b None (set_peers (upd (s_peers s) n (set_est (s_peers s n)))
    (set_fds (map (fun k => if k_fd k =? so_fd so then mk_kfd (k_fd k) (k_ip k) (k_port k) (p_addr (s_peers s n)) else k) (s_fds s)) s)).
Proof.
  intros c b n e so ip s H Rd L Hso Hip.
  destruct H as [g_fresh0 g_heap0 g_fds0 g_nodup0 g_static0 g_dyn0 g_offs0 g_sock0 g_live0 g_one0 g_acc0 g_excl0 g_est0 g_par0 g_tun0 g_work0].
  destruct Rd as [r_local0 r_addr0 r_sock0 r_par0].
  destruct (g_heap0 _ _ Hso) as (Fd & r & Hin). rewrite Fd.
  set (g := fun k => if k_fd k =? e_sock e then mk_kfd (k_fd k) (k_ip k) (k_port k) (p_addr (s_peers s n)) else k).
  assert (Gf : forall k, k_fd (g k) = k_fd k) by (intros k; unfold g; destruct (k_fd k =? e_sock e); reflexivity).
  assert (Es : forall m, p_sock (upd (s_peers s) n (set_est (s_peers s n)) m) = p_sock (s_peers s m)).
  { intros m. unfold upd. destruct (N.eqb_spec m n) as [->|]; reflexivity. }
  assert (Eo : forall m, p_off (upd (s_peers s) n (set_est (s_peers s n)) m) = p_off (s_peers s m)).
  { intros m. unfold upd. destruct (N.eqb_spec m n) as [->|]; reflexivity. }
  assert (Ex : forall m, m <> n -> upd (s_peers s) n (set_est (s_peers s n)) m = s_peers s m) by (intros m D; apply upd_other; exact D).
  assert (N1 : forall m, m <> n -> Some n <> Some m) by congruence.
  constructor; unfold fresh_ok, live, static_at, dynamic_at, no_static, works, connected, calm in *; cbn [s_fds s_next s_heap s_peers s_tuns s_queue s_skerr set_peers set_fds] in *; try assumption.
  - destruct g_fresh0 as (F1 & F2 & F3). split; [|split; assumption]. intros k Hk. apply in_map_iff in Hk. destruct Hk as (k0 & <- & Hk). rewrite Gf. auto.
  - intros i so' E. destruct (g_heap0 i so' E) as (A & r' & B). split; [exact A|]. apply (in_map g) in B. unfold g at 1 in B. cbn [k_fd k_ip k_port] in B. destruct (i =? e_sock e); eauto.
  - intros k Hk. apply in_map_iff in Hk. destruct Hk as (k0 & <- & Hk). rewrite Gf. auto.
  - rewrite map_map. rewrite (map_ext _ k_fd) by exact Gf. exact g_nodup0.
  - intros i so' m. rewrite Es. apply g_dyn0.
  - intros i so' par A B. destruct (g_offs0 i so' par A B) as (m & f & X & Y). exists m, f. rewrite Eo. auto.
  - intros m i. rewrite Es. apply g_sock0.
  - intros m f. rewrite Eo. apply g_live0.
  - intros m1 m2 f1 f2. rewrite !Eo. apply g_one0.
  - intros m f _ Lf. rewrite Eo in Lf. destruct (N.eqb_spec m n) as [->|D]; [rewrite upd_same; reflexivity|]. rewrite (Ex m D). apply (g_est0 m f); [apply N1; exact D | exact Lf].
  - intros X m f so' par ip' _. rewrite Eo, Es. intros Lf E K Ip. destruct (N.eqb_spec m n) as [->|D].
    + assert (f = e) by congruence. subst f. assert (so' = so) by congruence. subst so'. assert (ip' = ip) by congruence. subst ip'.
      destruct (r_par0 X e so par ip L Hso K Hip) as [Y|(Y & [(Z1 & Z2)|(k & Z1 & (so2 & Z2 & Z3))])]; [left; exact Y | right; auto | exfalso].
      destruct r_sock0 as (k' & so3 & A1 & A2 & A3). assert (k' = k) by congruence. subst k'. assert (so3 = so2) by congruence. subst so3.
      destruct A3 as [(_ & A3)|(A3 & _)]; [|congruence]. specialize (Y k so2 Z2 Z3). congruence.
    + apply (g_par0 X m f); auto.
  - intros t f A B. destruct (g_tun0 t f A B) as (m & e' & X & Y). exists m, e'. rewrite Eo. auto.
  - intros R. destruct (g_work0 R) as (W1 & W2 & W3 & W4 & W5). split; [exact W1|]. split; [exact W2|]. split; [exact W3|]. split.
    + intros m f. rewrite Eo. apply W4.
    + intros m f _ Lf. rewrite Eo in Lf. destruct (N.eqb_spec m n) as [->|D].
      * assert (f = e) by congruence. subst f. rewrite upd_same. cbn. rewrite r_local0. cbn. apply (in_map g) in Hin. unfold g at 1 in Hin. cbn [k_fd k_ip k_port] in Hin. rewrite N.eqb_refl, Hip in Hin. exact Hin.
      * rewrite (Ex m D). assert (Df : e_sock f <> e_sock e) by (intros Z; apply D; exact (g_one0 m n f e Lf L Z)).
        specialize (W5 m f (N1 m D) Lf). apply (in_map g) in W5. unfold g at 1 in W5. cbn [k_fd] in W5. rewrite (proj2 (N.eqb_neq _ _) Df) in W5. exact W5.
Qed.

Lemma tail_keep : forall c n e s (Q : bool -> st -> Prop), live s n e -> Q true (set_peers (upd (s_peers s) n (set_est (s_peers s n))) s) -> runs (tail c n true) s Q.
Proof.
  intros c n e s Q L H. unfold tail. apply runs_get_peer. rewrite L. apply runs_bind, runs_ret. cbn [negb]. apply runs_get_peer. unfold put_peer. apply runs_put, runs_ret. exact H.
Qed.

Lemma ready_same : forall c n local s s', same s s' -> ready c n local s -> ready c n local s'.
Proof.
  intros c n local s s' ((A1 & A2 & A3 & A4) & _) H. destruct H.
  constructor; unfold live, static_at, dynamic_at, no_static in *; rewrite ?A3, ?A4; assumption.
Qed.
Lemma ready_dropped : forall c b n local e s s', good c b (Some n) s -> ready c n local s -> live s n e -> dropped n e s s' ->
  ready c n local s' /\ forall f, ~ live s' n f.
Proof.
  intros c b n local e s s' G R L (D1 & D2). destruct R as [r_local0 r_addr0 r_sock0 r_par0].
  assert (Nl : forall f, ~ live s' n f) by (intros f; unfold live; rewrite D1, upd_same; discriminate).
  destruct (g_live _ _ _ _ G n e L) as (so & ip & par & Hso & Hkind & _).
  assert (Ns : no_static s local -> no_static s' local).
  { intros A i so' E. rewrite D2 in E. unfold upd in E. destruct (i =? e_sock e); [discriminate | eapply A; exact E]. }
  split; [|exact Nl]. constructor.
  - rewrite D1, upd_same. exact r_local0.
  - rewrite D1, upd_same. exact r_addr0.
  - destruct r_sock0 as (k & so' & A & B & C). exists k, so'. rewrite D1, upd_same. split; [exact A|]. split; [rewrite D2, upd_other; [exact B | intros ->; assert (so' = so) by congruence; subst so'; destruct C as [(C & _)|(C & _)]; congruence]|].
    destruct C as [C|(C1 & C2)]; [left; exact C | right; auto].
  - intros _ f so' par' ip' Lf. destruct (Nl f Lf).
Qed.

Lemma set_established_good : forall c b n local off s, good c b (Some n) s -> ready c n local s ->
  runs (set_established c n off) s (fun r s' => if r then good c b None s' else good c b (Some n) s').
Proof.
  intros c b n local off s G R. rewrite set_established_eq. apply runs_get_peer. destruct (p_off (s_peers s n)) as [e|] eqn:Eo.
  2: { apply runs_bind, runs_ret. assert (Nl : forall e, ~ live s n e) by (intros e; unfold live; congruence).
       destruct off; [eapply tail_new; eassumption | apply tail_plain; assumption]. }
  assert (L : live s n e) by exact Eo.
  assert (Drop : forall s1, same s s1 ->
    runs (bind (free_session c e) (fun _ => bind (get_peer n) (fun p => put_peer n (with_off None p)))) s1
      (fun _ s2 => runs (tail c n off) s2 (fun r s' => if r then good c b None s' else good c b (Some n) s'))).
  { intros s1 Sm. assert (G1 : good c b (Some n) s1) by (eapply good_same; eassumption). assert (R1 : ready c n local s1) by (eapply ready_same; eassumption).
    assert (L1 : live s1 n e) by (destruct Sm as ((_ & _ & _ & A4) & _); unfold live; rewrite A4; exact L).
    eapply runs_imp; [apply (end_session c b n e s1 G1 L1)|]. cbn beta. intros _ s2 (G2 & D2). destruct (ready_dropped c b n local e s1 s2 G1 R1 L1 D2) as (R2 & Nl).
    apply good_weaken with (n := n) in G2. destruct off; [eapply tail_new; eassumption | apply tail_plain; assumption]. }
  destruct off; [|apply runs_bind, runs_bind, runs_ret; specialize (Drop s (same_refl s)); exact Drop].
  destruct (g_live _ _ _ _ G n e L) as (so & ip & par & Hso & Hkind & Hip).
  apply runs_bind, runs_bind. unfold update_session. apply runs_get. rewrite Hso, Hip.
  destruct (addr_eqb (p_local (s_peers s n)) (ip, so_port so)) eqn:Ea.
  2: { apply runs_ret. cbn iota. specialize (Drop s (same_refl s)). exact Drop. }
  assert (Loc : local = (ip, so_port so)).
  { rewrite <- (r_local _ _ _ _ R). unfold addr_eqb in Ea. cbn in Ea. destruct (p_local (s_peers s n)) as [x y]. cbn in Ea. f_equal; lia. }
  subst local. unfold connect_socket. apply runs_get. rewrite Hso. rewrite (proj2 (N.eqb_neq _ _) (r_addr _ _ _ _ R)).
  apply runs_ask. intros a s1 Sm. destruct (N.eqb_spec a 0) as [->|Da]; cbn [negb].
  - apply runs_put, runs_ret. cbn iota. apply runs_ret. pose proof Sm as ((A1 & A2 & A3 & A4) & _).
    assert (G1 : good c b (Some n) s1) by (eapply good_same; eassumption). assert (R1 : ready c n (ip, so_port so) s1) by (eapply ready_same; eassumption).
    assert (L1 : live s1 n e) by (unfold live; rewrite A4; exact L).
    eapply tail_keep; [exact L1|]. cbn beta iota.
    pose proof (good_keep c b n e so ip s1 G1 R1 L1 ltac:(rewrite A3; exact Hso) Hip) as X.
    assert (Ep : p_addr (s_peers s n) = p_addr (s_peers s1 n)) by (rewrite A4; reflexivity). rewrite Ep. exact X.
  - apply runs_put, runs_ret. cbn iota. assert (Sm2 : same s (set_errno a s1)) by exact Sm. specialize (Drop _ Sm2). exact Drop.
Qed.

(** ** [fastd_peer_claim_address] *)

(** A peer without a socket gets one of the bind addresses *)
Lemma attach_good : forall c b n id so s, good c b (Some n) s -> p_sock (s_peers s n) = None -> s_heap s id = Some so -> so_kind so = Static ->
  good c b (Some n) (set_peers (upd (s_peers s) n (with_sock (Some id) (s_peers s n))) s).
Proof.
  intros c b n id so s H F2 Hid Kd.
  destruct H as [g_fresh0 g_heap0 g_fds0 g_nodup0 g_static0 g_dyn0 g_offs0 g_sock0 g_live0 g_one0 g_acc0 g_excl0 g_est0 g_par0 g_tun0 g_work0].
  set (q := with_sock (Some id) (s_peers s n)).
  assert (Eo : forall m, p_off (upd (s_peers s) n q m) = p_off (s_peers s m)).
  { intros m. unfold upd. destruct (N.eqb_spec m n) as [->|]; reflexivity. }
  assert (Ex : forall m, Some n <> Some m -> upd (s_peers s) n q m = s_peers s m).
  { intros m D. apply upd_other. congruence. }
  constructor; unfold fresh_ok, live, static_at, dynamic_at, no_static, works, connected, calm in *; cbn [s_fds s_next s_heap s_peers s_tuns s_queue s_skerr set_peers] in *; try assumption.
  - intros i so' m E K. pose proof (g_dyn0 i so' m E K) as X. unfold upd. destruct (N.eqb_spec m n) as [->|]; [|exact X]. rewrite F2 in X. discriminate.
  - intros i so' par A B. destruct (g_offs0 i so' par A B) as (m & f & X & Y). exists m, f. rewrite Eo. auto.
  - intros m i. unfold upd. destruct (N.eqb_spec m n) as [->|]; [|apply g_sock0]. cbn. intros X. injection X as <-. left. eauto.
  - intros m f. rewrite Eo. apply g_live0.
  - intros m1 m2 f1 f2. rewrite !Eo. apply g_one0.
  - intros m f D. rewrite Eo, (Ex m D). apply g_est0; exact D.
  - intros X m f so' par ip' D. rewrite Eo, (Ex m D). apply g_par0; assumption.
  - intros t f A B. destruct (g_tun0 t f A B) as (m & e' & X & Y). exists m, e'. rewrite Eo. auto.
  - intros R. destruct (g_work0 R) as (W1 & W2 & W3 & W4 & W5). split; [exact W1|]. split; [exact W2|]. split; [exact W3|]. split.
    + intros m f. rewrite Eo. apply W4.
    + intros m f D. rewrite Eo, (Ex m D). apply W5; exact D.
Qed.

Lemma claim_good : forall c b n id so local remote s, good c b None s -> s_heap s id = Some so -> remote <> 0 ->
  (so_kind so = Static /\ accepts so local = true \/ so_kind so = Dynamic n /\ (c_exclusive c = true -> no_static s local)) ->
  runs (claim_address n (Some id) (Some local) remote) s (fun _ s' => good c b (Some n) s' /\ ready c n local s').
Proof.
  intros c b n id so local remote s G0 Hso Hr Hk. pose proof (good_weaken c b n s G0) as G.
  unfold claim_address. apply runs_get_peer. unfold put_peer at 1. apply runs_put.
  set (p1 := mk_peer _ _ remote _ _). set (s1 := set_peers _ s).
  assert (G1 : good c b (Some n) s1) by (apply good_peer; [exact G | reflexivity | reflexivity]).
  assert (P1 : s_peers s1 n = p1) by apply upd_same.
  assert (H1 : s_heap s1 id = Some so) by exact Hso.
  assert (Par : c_exclusive c = true -> forall e so par ip, live s1 n e -> s_heap s1 (e_sock e) = Some so -> so_kind so = Offload par -> so_ip so = Some ip ->
    static_at s1 par \/ no_static s1 (ip, so_port so) /\ p_sock (s_peers s n) = Some par /\ dynamic_at s1 n par).
  { intros X e so0 par ip L. unfold live in L. rewrite P1 in L. unfold static_at, no_static, dynamic_at. apply (g_par _ _ _ _ G0 X n e so0 par ip); [discriminate | exact L]. }
  assert (Hp : s_heap s1 = s_heap s) by reflexivity. clearbody s1. apply runs_bind. apply runs_get. rewrite H1.
  assert (Fin : forall s2, good c b (Some n) s2 -> (forall i so', s_heap s2 i = Some so' -> s_heap s1 i = Some so') -> p_off (s_peers s2 n) = p_off p1 -> p_addr (s_peers s2 n) = remote ->
     (exists k so, p_sock (s_peers s2 n) = Some k /\ s_heap s2 k = Some so /\
       (so_kind so = Static /\ accepts so local = true \/ so_kind so = Dynamic n /\ (c_exclusive c = true -> no_static s1 local)) /\ (so_kind so = Static \/ p_sock (s_peers s2 n) = p_sock (s_peers s n) /\ (forall i, s_heap s2 i = s_heap s1 i))) ->
     runs (bind (get_peer n) (fun p => put_peer n (mk_peer (p_sock p) local (p_addr p) (p_est p) (p_off p)))) s2 (fun _ s' => good c b (Some n) s' /\ ready c n local s')).
  { intros s2 G2 Sub Eo Ea (k & so2 & B1 & B2 & B3 & B4). apply runs_get_peer. unfold put_peer. apply runs_put'. split; [apply good_peer; [exact G2 | reflexivity | reflexivity]|].
    assert (Ns : forall a, no_static s1 a -> no_static s2 a) by (intros a A i so' E; apply (A i so'), Sub; exact E).
    constructor; cbn [s_peers set_peers]; rewrite ?upd_same; cbn [p_local p_addr p_sock].
    - reflexivity.
    - congruence.
    - exists k, so2. split; [exact B1|]. split; [exact B2|]. destruct B3 as [B3|(B3 & B5)]; [left; exact B3 | right]. split; [exact B3|]. intros X. apply (Ns local), B5, X.
    - intros X e so0 par ip L Hs0 K0 I0. unfold live in L. cbn [s_peers set_peers] in L. rewrite upd_same in L. cbn in L. rewrite Eo in L. cbn [s_heap set_peers] in Hs0.
      assert (L1 : live s1 n e) by (unfold live; rewrite P1; exact L).
      destruct (Par X e so0 par ip L1 (Sub _ _ Hs0) K0 I0) as [Y|(Y1 & Y2 & Y3)].
      + left. destruct Y as (so3 & Y1 & Y2). assert (Bd : static_at s2 par); [|exact Bd].
        apply (g_static _ _ _ _ G2). apply (g_static _ _ _ _ G1). exists so3. auto.
      + right. split; [exact (Ns _ Y1)|]. destruct B4 as [B4|(B4 & B5)].
        * right. exists k. split; [exact B1|]. exists so2. auto.
        * left. split; [congruence|]. unfold dynamic_at in *. cbn [s_heap set_peers]. rewrite B5. exact Y3. }
  destruct Hk as [(Kd & Acc)|(Kd & Acc)]; rewrite Kd.
  - destruct (match p_sock (s_peers s n) with Some k => k =? id | None => false end) eqn:Ek.
    + apply runs_ret. apply Fin; [exact G1 | auto | rewrite P1; reflexivity | rewrite P1; reflexivity |].
      exists id, so. rewrite P1. cbn [p_sock p1]. destruct (p_sock (s_peers s n)) as [k|]; [|discriminate]. apply N.eqb_eq in Ek. subst k. auto 10.
    + eapply runs_then; [apply free_socket_good; exact G1|]. cbn beta. intros _ s2 (G2 & (F1 & F2 & F3 & F4 & F5)). apply runs_get_peer. unfold put_peer at 1. apply runs_put'.
      assert (Hid : s_heap s2 id = Some so) by (rewrite F3; [exact H1 | exists so; auto]).
      apply Fin.
      * apply (attach_good c b n id so s2); [exact G2 | rewrite F2; reflexivity | exact Hid | exact Kd].
      * exact F4.
      * cbn [s_peers set_peers]. rewrite upd_same. cbn. rewrite F2. cbn. rewrite P1. reflexivity.
      * cbn [s_peers set_peers]. rewrite upd_same. cbn. rewrite F2. cbn. rewrite P1. reflexivity.
      * exists id, so. cbn [s_peers set_peers]. rewrite upd_same. cbn. auto 10.
  - apply runs_ret. apply Fin; [exact G1 | auto | rewrite P1; reflexivity | rewrite P1; reflexivity |].
    exists id, so. rewrite P1. cbn [p_sock p1]. split; [exact (g_dyn _ _ _ _ G0 id so n Hso Kd)|]. split; [exact H1|]. split; [right; split; [exact Kd|] | right; auto].
    intros X i so' E K. rewrite Hp in E. exact (Acc X i so' E K).
Qed.
