(** Proofs about L2TP offloading: sessions of peers *)
From Coq Require Import List NArith Bool Lia ZifyBool ZifyN.
From Verif Require Import L2tpModel L2tpSpec L2tpProofs L2tpProofs2 L2tpProofs3.
Import ListNotations.
Local Open Scope N_scope.

Lemma runs_get_peer : forall n A (f : peer -> M A) s Q, runs (f (s_peers s n)) s Q -> runs (bind (get_peer n) f) s Q.
Proof. intros n A f s Q H. exact H. Qed.

(** ** The end of a session *)

Lemma drop_session : forall c b n e s s1, good c b (Some n) s -> live s n e -> free_post c e s s1 ->
  good c b None (set_peers (upd (s_peers s) n (with_off None (s_peers s n))) s1).
Proof.
  intros c b n e s s1 H L (P1 & P2 & P3 & P4 & P5 & P6). destruct H as [g_fresh0 g_heap0 g_fds0 g_nodup0 g_static0 g_dyn0 g_offs0 g_sock0 g_live0 g_one0 g_acc0 g_excl0 g_est0 g_par0 g_tun0 g_work0].
  destruct (g_live0 n e L) as (so & ip & par & Hso & Hk & Hip).
  assert (Own : forall f, own_le None (filter (fun t => negb (on_fd (e_sock e) t)) (s_tuns s)) (s_tuns s1) -> forall t, In t (s_tuns s1) -> t_fd t = Some f ->
     f <> e_sock e /\ exists t0, In t0 (s_tuns s) /\ t_fd t0 = Some f).
  { intros f O t Ht Ef. destruct (O t f Ht Ef) as [X|(t0 & Ht0 & E0)]; [discriminate|]. apply filter_In in Ht0. destruct Ht0 as (X1 & X2). unfold on_fd in X2. rewrite E0 in X2. split; [lia | eauto]. }
  assert (Es : forall m, p_sock (upd (s_peers s) n (with_off None (s_peers s n)) m) = p_sock (s_peers s m)).
  { intros m. unfold upd. destruct (N.eqb_spec m n) as [->|]; reflexivity. }
  assert (Lv : forall m f, p_off (upd (s_peers s) n (with_off None (s_peers s n)) m) = Some f -> m <> n /\ live s m f /\ e_sock f <> e_sock e).
  { intros m f. unfold upd. destruct (N.eqb_spec m n) as [->|D]; [discriminate|]. intros Lf. split; [exact D|]. split; [exact Lf|]. intros E. apply D. exact (g_one0 m n f e Lf L E). }
  assert (Lb : forall m f, live s m f -> e_sock f <> e_sock e -> p_off (upd (s_peers s) n (with_off None (s_peers s n)) m) = Some f).
  { intros m f Lf D. rewrite upd_other; [exact Lf|]. intros ->. unfold live in *. congruence. }
  assert (Ex : forall m, m <> n -> upd (s_peers s) n (with_off None (s_peers s n)) m = s_peers s m) by (intros m D; apply upd_other; exact D).
  assert (Hh : forall i so', upd (s_heap s) (e_sock e) None i = Some so' -> i <> e_sock e /\ s_heap s i = Some so').
  { intros i so' E. unfold upd in E. destruct (N.eqb_spec i (e_sock e)); [discriminate | auto]. }
  assert (Hb : forall i so', i <> e_sock e -> s_heap s i = Some so' -> upd (s_heap s) (e_sock e) None i = Some so').
  { intros i so' D E. rewrite upd_other; assumption. }
  assert (Hs : forall i so', s_heap s i = Some so' -> (forall q, so_kind so' <> Offload q) -> upd (s_heap s) (e_sock e) None i = Some so').
  { intros i so' E D. apply Hb; [|exact E]. intros ->. rewrite Hso in E. injection E as <-. exact (D par Hk). }
  assert (Kf : forall k, In k (s_fds s) -> k_fd k <> e_sock e -> In k (filter (fun k => negb (k_fd k =? e_sock e)) (s_fds s))).
  { intros k Hk' D. apply filter_In. split; [exact Hk' | lia]. }
  assert (N1 : forall m, Some n <> Some m <-> m <> n) by (intros m; split; congruence).
  constructor; unfold fresh_ok, live, static_at, dynamic_at, no_static, connected in *; cbn [s_fds s_next s_heap s_peers s_tuns s_queue s_skerr set_peers] in *; rewrite ?P2, ?P3, ?P4 in *.
  - destruct g_fresh0 as (F1 & F2 & F3). split; [|split].
    + intros k Hk'. apply filter_In in Hk'. apply F1; tauto.
    + intros i so' E. destruct (Hh i so' E). eapply F2; eassumption.
    + intros t f Ht Ef. destruct (Own f P5 t Ht Ef) as (_ & t0 & A & B). eapply F3; eassumption.
  - intros i so' E. destruct (Hh i so' E) as (D & E'). destruct (g_heap0 i so' E') as (A & r & B). split; [exact A|]. exists r. apply Kf; [exact B | exact D].
  - intros k Hk'. apply filter_In in Hk'. destruct Hk' as (A & B). destruct (g_fds0 k A) as (so' & E). exists so'. apply Hb; [lia | exact E].
  - apply NoDup_map_filter. exact g_nodup0.
  - intros i. rewrite g_static0. split; intros (so' & A & B).
    + exists so'. split; [|exact B]. apply Hs; [exact A | congruence].
    + destruct (Hh i so' A). eauto.
  - intros i so' m E K. destruct (Hh i so' E) as (D & E'). rewrite Es. eapply g_dyn0; eassumption.
  - intros i so' q E K. destruct (Hh i so' E) as (D & E'). destruct (g_offs0 i so' q E' K) as (m & f & Lf & Q). exists m, f. split; [|exact Q]. apply Lb; [exact Lf | congruence].
  - intros m i. rewrite Es. intros Q. destruct (g_sock0 m i Q) as [(so' & A & B)|(so' & A & B)]; [left | right]; exists so'; (split; [|exact B]); apply Hs; try exact A; congruence.
  - intros m f Lf. destruct (Lv m f Lf) as (D & L' & D'). destruct (g_live0 m f L') as (so' & ip' & q & A & B). exists so', ip', q. split; [|exact B]. apply Hb; assumption.
  - intros m1 m2 f1 f2 L1 L2. destruct (Lv m1 f1 L1) as (_ & L1' & _). destruct (Lv m2 f2 L2) as (_ & L2' & _). apply g_one0; assumption.
  - intros i so' q E K. destruct (Hh i so' E) as (D & E'). destruct (g_acc0 i so' q E' K) as (A & B). split; [exact A|]. intros so2 E2. destruct (Hh q so2 E2) as (_ & E3). apply B; exact E3.
  - intros X i1 d m i2 t E1 K1 E2 K2. destruct (Hh i1 d E1). destruct (Hh i2 t E2). eapply g_excl0; eassumption.
  - intros m f _ Lf. destruct (Lv m f Lf) as (D & L' & _). rewrite (Ex m D). apply (g_est0 m f); [apply N1; exact D | exact L'].
  - intros X m f so' q ip' _ Lf E K Ip. destruct (Lv m f Lf) as (D & L' & _). rewrite (Ex m D). destruct (Hh _ so' E) as (_ & E').
    destruct (g_par0 X m f so' q ip' (proj2 (N1 m) D) L' E' K Ip) as [(so2 & A & B)|(A & B & so2 & A2 & B2)].
    + left. exists so2. split; [|exact B]. apply Hs; [exact A | congruence].
    + right. split; [|split; [exact B|]].
      * intros i so3 E3 K3. destruct (Hh i so3 E3). eapply A; eassumption.
      * exists so2. split; [|exact B2]. apply Hs; [exact A2 | congruence].
  - intros t f Ht Ef. destruct (Own f P5 t Ht Ef) as (D & t0 & A & B). destruct (g_tun0 t0 f A B) as (m & g & Lg & E). exists m, g. split; [|exact E]. apply Lb; [exact Lg | congruence].
  - intros R. destruct (g_work0 R) as (W1 & W2 & W3 & W4 & W5). destruct (P6 R W1) as (C1 & C2).
    assert (T : s_tuns s1 = filter (fun t => negb (on_fd (e_sock e) t)) (s_tuns s)).
    { apply C2. intros t Ht Et. destruct (W4 n e L) as (X & _).
      assert (t = mk_tun (e_conn e) (Some (e_sock e)) (Some (e_name e, e_mtu e))); [|subst t; unfold on_fd; cbn; lia].
      clear - Ht Et X W2. set (u := mk_tun _ _ _) in *. assert (Eu : t_id u = e_conn e) by reflexivity. clearbody u.
      induction (s_tuns s) as [|v l IH]; [destruct Ht|]. cbn in W2. inversion W2 as [|? ? A B]; subst. destruct Ht as [->|Ht], X as [->|X]; auto.
      - exfalso. apply A. rewrite Et, <- Eu. apply in_map. exact X.
      - exfalso. apply A. rewrite Eu, <- Et. apply in_map. exact Ht. }
    split; [exact C1|]. rewrite T. split; [apply NoDup_map_filter; exact W2|]. split; [apply names_filter; exact W3|]. split.
    + intros m f Lf. destruct (Lv m f Lf) as (D & L' & D'). destruct (W4 m f L') as (A & B). split; [|exact B]. cbn [s_tuns set_peers]. rewrite T. apply filter_In. split; [exact A|]. unfold on_fd; cbn. lia.
    + intros m f _ Lf. destruct (Lv m f Lf) as (D & L' & D'). rewrite (Ex m D). apply Kf; [|exact D']. apply W5; [apply N1; exact D | exact L'].
Qed.

Definition dropped (n : N) (e : session) (s s' : st) : Prop :=
  (forall m, s_peers s' m = upd (s_peers s) n (with_off None (s_peers s n)) m) /\ (forall i, s_heap s' i = upd (s_heap s) (e_sock e) None i).
Lemma end_session : forall c b n e s, good c b (Some n) s -> live s n e ->
  runs (bind (free_session c e) (fun _ => bind (get_peer n) (fun p => put_peer n (with_off None p)))) s (fun _ s' => good c b None s' /\ dropped n e s s').
Proof.
  intros c b n e s H L. destruct (g_live _ _ _ _ H n e L) as (so & ip & par & Hso & _ & _). destruct (g_heap _ _ _ _ H _ _ Hso) as (Fd & r & Hin).
  eapply runs_then; [eapply free_effect; [exact Hso | exact Fd | exact (in_map k_fd _ _ Hin)]|].
  cbn beta. intros _ s1 P. apply runs_get_peer. unfold put_peer. apply runs_put'. pose proof P as (P1 & P2 & P3 & P4 & _).
  cbn beta. rewrite P1. split; [apply (drop_session c b n e s s1 H L P)|].
  unfold dropped. cbn [s_peers s_heap set_peers]. rewrite P3. auto.
Qed.

(** [reset_peer] *)
Lemma reset_peer_good : forall c b n s, good c b (Some n) s -> runs (reset_peer c n) s (fun _ s' => good c b None s' /\ s_peers s' n = idle).
Proof.
  intros c b n s H. unfold reset_peer. eapply runs_then; [apply free_socket_good; exact H|]. cbn beta. intros _ s1 (G & (F1 & F2 & _)).
  apply runs_get_peer. unfold put_peer at 1. apply runs_put.
  set (p := mk_peer (p_sock (s_peers s1 n)) (0, 0) 0 false (p_off (s_peers s1 n))).
  assert (G2 : good c b (Some n) (set_peers (upd (s_peers s1) n p) s1)) by (apply good_peer; [exact G | reflexivity | reflexivity]).
  destruct (p_off (s_peers s1 n)) as [e|] eqn:Eo.
  - eapply runs_imp; [apply (end_session c b n e); [exact G2|]|].
    + unfold live. cbn [s_peers set_peers]. rewrite upd_same. reflexivity.
    + cbn beta. intros _ s' (A & (B & _)). split; [exact A|]. rewrite B. cbn [s_peers set_peers]. rewrite !upd_same. unfold p, with_off, idle. cbn. rewrite F2. reflexivity.
  - apply runs_ret. split.
    + apply (good_strengthen c b n); [exact G2|]. intros e. unfold live. cbn [s_peers set_peers]. rewrite upd_same. discriminate.
    + cbn [s_peers set_peers]. rewrite upd_same. unfold p, idle. rewrite F2. reflexivity.
Qed.

(** ** What is known when a peer is going to be established *)

Record ready (c : config) (n : N) (local : N * N) (s : st) : Prop := {
  r_local : p_local (s_peers s n) = local;
  r_addr : p_addr (s_peers s n) <> 0;
  r_sock : exists k so, p_sock (s_peers s n) = Some k /\ s_heap s k = Some so /\
    (so_kind so = Static /\ accepts so local = true \/ so_kind so = Dynamic n /\ (c_exclusive c = true -> no_static s local));
  r_par : c_exclusive c = true -> forall e so par ip, live s n e -> s_heap s (e_sock e) = Some so -> so_kind so = Offload par -> so_ip so = Some ip ->
    static_at s par \/ no_static s (ip, so_port so) /\ (p_sock (s_peers s n) = Some par /\ dynamic_at s n par \/ exists k, p_sock (s_peers s n) = Some k /\ static_at s k)
}.

(** A failed attempt to start a session *)
Lemma good_none : forall c b xp s s', good c b xp s -> none_post c s s' -> good c b xp s'.
Proof.
  intros c b xp s s' H (A1 & A2 & A3 & A4 & A5 & A6). destruct H as [g_fresh0 g_heap0 g_fds0 g_nodup0 g_static0 g_dyn0 g_offs0 g_sock0 g_live0 g_one0 g_acc0 g_excl0 g_est0 g_par0 g_tun0 g_work0].
  assert (Own : forall t f, In t (s_tuns s') -> t_fd t = Some f -> exists t0, In t0 (s_tuns s) /\ t_fd t0 = Some f).
  { intros t f Ht Ef. destruct (A5 t f Ht Ef) as [X|X]; [discriminate | exact X]. }
  assert (Live : forall m e, live s' m e <-> live s m e) by (intros m e; unfold live; rewrite A1; tauto).
  assert (St : forall i, static_at s' i <-> static_at s i) by (intros i; unfold static_at; rewrite A3; tauto).
  assert (Dy : forall m i, dynamic_at s' m i <-> dynamic_at s m i) by (intros m i; unfold dynamic_at; rewrite A3; tauto).
  constructor.
  - destruct g_fresh0 as (F1 & F2 & F3). split; [|split].
    + rewrite A2. intros k Hk. specialize (F1 k Hk). lia.
    + intros i so E. rewrite A3 in E. specialize (F2 i so E). lia.
    + intros t f Ht Ef. destruct (Own t f Ht Ef) as (t0 & X & Y). specialize (F3 t0 f X Y). lia.
  - rewrite A2. intros i so E. rewrite A3 in E. auto.
  - rewrite A2. intros k Hk. rewrite A3. auto.
  - rewrite A2. exact g_nodup0.
  - intros i. rewrite St. apply g_static0.
  - rewrite A1. intros i so m E. rewrite A3 in E. eauto.
  - intros i so par E. rewrite A3 in E. intros K. destruct (g_offs0 i so par E K) as (m & e & X & Y). exists m, e. rewrite Live. auto.
  - rewrite A1. intros m i E. rewrite St, Dy. apply g_sock0; exact E.
  - intros m e L. apply Live in L. destruct (g_live0 m e L) as (so & ip & par & X & Y). exists so, ip, par. rewrite A3. auto.
  - intros m1 m2 e f. rewrite !Live. apply g_one0.
  - intros i so par E K. rewrite A3 in E. setoid_rewrite A3. destruct (g_acc0 i so par E K) as (X & Y). split; [lia | exact Y].
  - intros X i1 d m i2 t E1 K1 E2 K2. rewrite A3 in *. eapply g_excl0; eassumption.
  - intros m e D. rewrite Live, A1. apply g_est0; exact D.
  - intros X m e so par ip D L E K I. rewrite A3 in E. apply Live in L. rewrite St, Dy, A1. destruct (g_par0 X m e so par ip D L E K I) as [Y|(Y & Z)]; [left; exact Y | right].
    split; [|exact Z]. intros i so' E'. rewrite A3 in E'. eauto.
  - intros t f Ht Ef. destruct (Own t f Ht Ef) as (t0 & X & Y). destruct (g_tun0 t0 f X Y) as (m & e & L & E). exists m, e. rewrite Live. auto.
  - intros R. destruct (g_work0 R) as (W1 & W2 & W3 & W4 & W5). destruct (A6 R W1) as (C1 & C2). rewrite C2. split; [exact C1|]. split; [exact W2|]. split; [exact W3|]. split.
    + intros m e L. apply Live in L. destruct (W4 m e L) as (Y & Z). unfold works. rewrite C2. auto.
    + intros m e D L. apply Live in L. unfold connected. rewrite A1, A2. apply W5; assumption.
Qed.

(** A new session *)
Lemma good_init : forall c b n local e s s1 k, good c b (Some n) s -> ready c n local s -> (forall f, ~ live s n f) -> p_sock (s_peers s n) = Some k ->
  init_post c n (s_peers s n) k s (Some e) s1 ->
  good c b None (set_peers (upd (s_peers s1) n (mk_peer (p_sock (s_peers s n)) (p_local (s_peers s n)) (p_addr (s_peers s n)) true (Some e))) s1).
Proof.
  intros c b n local e s s1 k H Rd Nl Hk ((M1 & M2 & M3 & M4 & M5 & M6) & R6). set (p := mk_peer _ _ _ _ _). rewrite M3.
  destruct H as [g_fresh0 g_heap0 g_fds0 g_nodup0 g_static0 g_dyn0 g_offs0 g_sock0 g_live0 g_one0 g_acc0 g_excl0 g_est0 g_par0 g_tun0 g_work0]. destruct Rd as [r_local0 r_addr0 r_sock0 r_par0]. rewrite r_local0 in *. destruct r_sock0 as (k' & so & Hk' & Hso & Hkind). assert (k' = k) by congruence. subst k'.
  set (id := e_sock e) in *. set (o := mk_sock id (Some (fst local)) (snd local) (Offload k)) in *.
  pose proof g_fresh0 as (F1 & F2 & F3).
  assert (New : forall i so', s_heap s i = Some so' -> i <> id) by (intros i so' E ->; specialize (F2 _ _ E); lia).
  assert (Es : forall m, p_sock (upd (s_peers s) n p m) = p_sock (s_peers s m)).
  { intros m. unfold upd. destruct (N.eqb_spec m n) as [->|]; reflexivity. }
  assert (Lv : forall m f, p_off (upd (s_peers s) n p m) = Some f -> (m = n /\ f = e) \/ (m <> n /\ live s m f)).
  { intros m f. unfold upd. destruct (N.eqb_spec m n) as [->|D]; [|right; auto]. cbn. intros X. injection X as <-. auto. }
  assert (Lb : forall m f, live s m f -> m <> n) by (intros m f L ->; exact (Nl f L)).
  assert (Lb' : forall m f, live s m f -> p_off (upd (s_peers s) n p m) = Some f) by (intros m f L; rewrite upd_other; [exact L | eauto]).
  assert (Le : p_off (upd (s_peers s) n p n) = Some e) by (rewrite upd_same; reflexivity).
  assert (Ex : forall m, m <> n -> upd (s_peers s) n p m = s_peers s m) by (intros m D; apply upd_other; exact D).
  assert (Hh : forall i so', upd (s_heap s) id (Some o) i = Some so' -> (i = id /\ so' = o) \/ (i <> id /\ s_heap s i = Some so')).
  { intros i so' E. unfold upd in E. destruct (N.eqb_spec i id); [injection E as <-; auto | auto]. }
  assert (Hb : forall i so', s_heap s i = Some so' -> upd (s_heap s) id (Some o) i = Some so').
  { intros i so' E. rewrite upd_other; [exact E | eauto]. }
  assert (Ho : upd (s_heap s) id (Some o) id = Some o) by apply upd_same.
  assert (N1 : forall m, Some n <> Some m <-> m <> n) by (intros m; split; congruence).
  assert (Kne : k <> id) by (eapply New; exact Hso).
  constructor; unfold fresh_ok, live, static_at, dynamic_at, no_static, connected in *; cbn [s_fds s_next s_heap s_peers s_tuns s_queue s_skerr set_peers] in *; rewrite ?M2, ?M4, ?M5 in *.
  - split; [|split].
    + intros x [<-|Hx]; [cbn; lia | specialize (F1 x Hx); lia].
    + intros i so' E. destruct (Hh i so' E) as [(-> & _)|(_ & E')]; [lia | specialize (F2 _ _ E'); lia].
    + intros t f Ht Ef. destruct (M6 t f Ht Ef) as [X|(t0 & X & Y)]; [injection X as <-; lia | specialize (F3 t0 f X Y); lia].
  - intros i so' E. destruct (Hh i so' E) as [(-> & ->)|(_ & E')].
    + split; [reflexivity|]. exists (p_addr (s_peers s n)). left; reflexivity.
    + destruct (g_heap0 i so' E') as (A & r & B). split; [exact A|]. exists r. right; exact B.
  - intros x [<-|Hx]; [exists o; exact Ho|]. destruct (g_fds0 x Hx) as (so' & E). exists so'. apply Hb; exact E.
  - cbn. constructor; [|exact g_nodup0]. intros X. apply in_map_iff in X. destruct X as (x & E & Hx). specialize (F1 x Hx). lia.
  - intros i. rewrite g_static0. split; intros (so' & A & B).
    + exists so'. split; [|exact B]. apply Hb. exact A.
    + destruct (Hh i so' A) as [(-> & ->)|(_ & E')]; [discriminate | eauto].
  - intros i so' m E K. destruct (Hh i so' E) as [(-> & ->)|(_ & E')]; [discriminate|]. rewrite Es. eapply g_dyn0; eassumption.
  - intros i so' q E K. destruct (Hh i so' E) as [(-> & ->)|(_ & E')]; [exists n, e; auto|].
    destruct (g_offs0 i so' q E' K) as (m & f & Lf & Q). exists m, f. split; [|exact Q]. apply Lb'; exact Lf.
  - intros m i. rewrite Es. intros Q. destruct (g_sock0 m i Q) as [(so' & A & B)|(so' & A & B)]; [left | right]; exists so'; (split; [|exact B]); apply Hb; exact A.
  - intros m f Lf. destruct (Lv m f Lf) as [(-> & ->)|(D & L')].
    + exists o, (fst local), k. auto.
    + destruct (g_live0 m f L') as (so' & ip' & q & A & B). exists so', ip', q. split; [|exact B]. apply Hb; assumption.
  - intros m1 m2 f1 f2 L1 L2 E. destruct (Lv m1 f1 L1) as [(-> & ->)|(D1 & L1')]; destruct (Lv m2 f2 L2) as [(-> & ->)|(D2 & L2')]; [reflexivity | | |].
    + exfalso. destruct (g_live0 m2 f2 L2') as (so' & ? & ? & A & _). apply (New _ _ A). symmetry; exact E.
    + exfalso. destruct (g_live0 m1 f1 L1') as (so' & ? & ? & A & _). apply (New _ _ A). exact E.
    + eapply g_one0; eassumption.
  - intros i so' q E K. destruct (Hh i so' E) as [(-> & ->)|(D & E')].
    + cbn in K. injection K as <-. split; [specialize (F2 _ _ Hso); lia|]. intros so2 E2. rewrite upd_other in E2 by exact Kne. rewrite Hso in E2. injection E2 as <-.
      destruct Hkind as [(A & B)|(A & _)]; [left | right; eauto]. split; [exact A|]. cbn. intros ip X. injection X as <-. destruct local; exact B.
    + destruct (g_acc0 i so' q E' K) as (A & B). split; [lia|]. intros so2 E2. destruct (Hh q so2 E2) as [(-> & ->)|(_ & E3)]; [lia | apply B; exact E3].
  - intros X i1 d m i2 t E1 K1 E2 K2. destruct (Hh i1 d E1) as [(-> & ->)|(_ & E1')]; [discriminate|]. destruct (Hh i2 t E2) as [(-> & ->)|(_ & E2')]; [discriminate|]. eapply g_excl0; eassumption.
  - intros m f _ Lf. destruct (Lv m f Lf) as [(-> & ->)|(D & L')]; [rewrite upd_same; reflexivity|]. rewrite (Ex m D). apply (g_est0 m f); [apply N1; exact D | exact L'].
  - assert (Ns : forall a, (forall i so', s_heap s i = Some so' -> so_kind so' = Static -> accepts so' a = false) -> forall i so', upd (s_heap s) id (Some o) i = Some so' -> so_kind so' = Static -> accepts so' a = false).
    { intros a A i so3 E3 K3. destruct (Hh i so3 E3) as [(-> & ->)|(_ & E3')]; [discriminate | eapply A; eassumption]. }
    intros X m f so' q ip' _ Lf E K Ip. destruct (Lv m f Lf) as [(-> & ->)|(D & L')].
    + fold id in E. rewrite Ho in E. injection E as <-. cbn in K, Ip. injection K as <-. injection Ip as <-.
      destruct Hkind as [(A & B)|(A & B)].
      * left. exists so. split; [apply Hb; exact Hso | exact A].
      * right. split; [|split; [rewrite Es; exact Hk | exists so; split; [apply Hb; exact Hso | exact A]]]. cbn [so_port o]. destruct local. apply Ns, B, X.
    + rewrite (Ex m D). destruct (Hh _ so' E) as [(E1 & ->)|(_ & E')]; [exfalso; destruct (g_live0 m f L') as (so' & ? & ? & A & _); exact (New _ _ A E1)|].
      destruct (g_par0 X m f so' q ip' (proj2 (N1 m) D) L' E' K Ip) as [(so2 & A & B)|(A & B & so2 & A2 & B2)].
      * left. exists so2. split; [|exact B]. apply Hb; exact A.
      * right. split; [apply Ns; exact A | split; [exact B|]]. exists so2. split; [|exact B2]. apply Hb; exact A2.
  - intros t f Ht Ef. destruct (M6 t f Ht Ef) as [X|(t0 & X & Y)]; [injection X as <-; exists n, e; split; [exact Le | reflexivity]|].
    destruct (g_tun0 t0 f X Y) as (m & g & Lg & E). exists m, g. split; [|exact E]. apply Lb'; exact Lg.
  - intros R. destruct (g_work0 R) as (W1 & W2 & W3 & W4 & W5). destruct (R6 R W1) as (C1 & C2 & C3 & C4 & C5 & C6 & C7 & C8).
    split; [exact C1|]. rewrite C8. split; [|split; [|split]].
    + cbn. constructor; [|exact W2]. intros X. apply in_map_iff in X. destruct X as (t & E & Ht). exact (proj1 (find_tun_none _ _) C3 t Ht E).
    + apply names_cons; [|exact W3]. cbn. intros m x X. injection X as <- <-. exact C5.
    + intros m f Lf. unfold works. cbn [s_tuns set_peers]. rewrite C8. destruct (Lv m f Lf) as [(-> & ->)|(D & L')].
      * split; [left; reflexivity | auto].
      * destruct (W4 m f L') as (A & B). split; [right; exact A | exact B].
    + intros m f _ Lf. destruct (Lv m f Lf) as [(-> & ->)|(D & L')].
      * left. rewrite upd_same. cbn. rewrite ?r_local0. reflexivity.
      * right. rewrite (Ex m D). apply W5; [apply N1; exact D | exact L'].
Qed.
