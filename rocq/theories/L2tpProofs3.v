(** Proofs about L2TP offloading: the invariant *)
From Coq Require Import List NArith Bool Lia ZifyBool ZifyN.
From Verif Require Import L2tpModel L2tpSpec L2tpProofs L2tpProofs2.
Import ListNotations.
Local Open Scope N_scope.

(** No socket of a bind address gets packets for the address of [so] *)
Definition no_static (s : st) (a : N * N) : Prop :=
  forall id so', s_heap s id = Some so' -> so_kind so' = Static -> accepts so' a = false.
Definition static_at (s : st) (id : N) : Prop := exists so, s_heap s id = Some so /\ so_kind so = Static.
Definition dynamic_at (s : st) (n id : N) : Prop := exists so, s_heap s id = Some so /\ so_kind so = Dynamic n.
Definition addr_of (so : sock) (ip : N) : N * N := (ip, so_port so).
Definition works (c : config) (s : st) (n : N) (e : session) : Prop :=
  In (mk_tun (e_conn e) (Some (e_sock e)) (Some (e_name e, e_mtu e))) (s_tuns s) /\ e_conn e <> 0 /\ e_name e <> 0 /\ e_mtu e = c_mtu c n /\
  (forall x, c_name c n = Some x -> x = 0 \/ e_name e = x).
Definition connected (s : st) (n : N) (e : session) : Prop :=
  In (mk_kfd (e_sock e) (Some (fst (p_local (s_peers s n)))) (snd (p_local (s_peers s n))) (p_addr (s_peers s n))) (s_fds s).

(** The invariant; nothing is said about the parent and the addresses of the session of
    peer [xp], which may be just changing *)
Record good (c : config) (binds : list (option N * N)) (xp : option N) (s : st) : Prop := {
  g_fresh : fresh_ok s;
  g_heap : forall id so, s_heap s id = Some so -> so_fd so = id /\ exists r, In (mk_kfd id (so_ip so) (so_port so) r) (s_fds s);
  g_fds : forall k, In k (s_fds s) -> exists so, s_heap s (k_fd k) = Some so;
  g_nodup : NoDup (map k_fd (s_fds s));
  g_static : forall id, bound binds id <-> static_at s id;
  g_dyn : forall id so n, s_heap s id = Some so -> so_kind so = Dynamic n -> p_sock (s_peers s n) = Some id;
  g_offs : forall id so par, s_heap s id = Some so -> so_kind so = Offload par -> exists n e, live s n e /\ e_sock e = id;
  g_sock : forall n id, p_sock (s_peers s n) = Some id -> static_at s id \/ dynamic_at s n id;
  g_live : forall n e, live s n e -> exists so ip par, s_heap s (e_sock e) = Some so /\ so_kind so = Offload par /\ so_ip so = Some ip;
  g_one : forall n m e f, live s n e -> live s m f -> e_sock e = e_sock f -> n = m;
  g_acc : forall id so par, s_heap s id = Some so -> so_kind so = Offload par -> par < s_next s /\
    forall so', s_heap s par = Some so' -> (so_kind so' = Static /\ forall ip, so_ip so = Some ip -> accepts so' (ip, so_port so) = true) \/ exists q, so_kind so' = Dynamic q;
  g_excl : c_exclusive c = true -> forall i1 d n i2 t, s_heap s i1 = Some d -> so_kind d = Dynamic n -> s_heap s i2 = Some t -> so_kind t = Static ->
    so_port t = so_port d -> overlap (so_ip t) (so_ip d) = false;
  g_est : forall n e, xp <> Some n -> live s n e -> p_est (s_peers s n) = true;
  g_par : c_exclusive c = true -> forall n e so par ip, xp <> Some n -> live s n e -> s_heap s (e_sock e) = Some so -> so_kind so = Offload par -> so_ip so = Some ip ->
    static_at s par \/ no_static s (ip, so_port so) /\ p_sock (s_peers s n) = Some par /\ dynamic_at s n par;
  g_tun : forall t f, In t (s_tuns s) -> t_fd t = Some f -> exists n e, live s n e /\ e_sock e = f;
  g_work : c_reliable c = true -> calm s /\ NoDup (map t_id (s_tuns s)) /\ NoDup (names (s_tuns s)) /\ (forall n e, live s n e -> works c s n e) /\
    (forall n e, xp <> Some n -> live s n e -> connected s n e)
}.

Lemma good_weaken : forall c b n s, good c b None s -> good c b (Some n) s.
Proof.
  intros c b n s H. destruct H as [g_fresh0 g_heap0 g_fds0 g_nodup0 g_static0 g_dyn0 g_offs0 g_sock0 g_live0 g_one0 g_acc0 g_excl0 g_est0 g_par0 g_tun0 g_work0]. constructor; try assumption.
  - intros m e _ L. apply (g_est0 m e); [discriminate | exact L].
  - intros X m e so par ip _ L. apply (g_par0 X m e so par ip); [discriminate | exact L].
  - intros R. destruct (g_work0 R) as (W1 & W2 & W3 & W4 & W5). repeat (split; [assumption|]). intros m e _ L. apply W5; [discriminate | exact L].
Qed.
Lemma good_strengthen : forall c b n s, good c b (Some n) s -> (forall e, ~ live s n e) -> good c b None s.
Proof.
  intros c b n s H N0. destruct H as [g_fresh0 g_heap0 g_fds0 g_nodup0 g_static0 g_dyn0 g_offs0 g_sock0 g_live0 g_one0 g_acc0 g_excl0 g_est0 g_par0 g_tun0 g_work0].
  assert (D : forall m e, live s m e -> Some n <> Some m) by (intros m e L E; injection E as ->; exact (N0 e L)).
  constructor; try assumption.
  - intros m e _ L. apply (g_est0 m e); eauto.
  - intros X m e so par ip _ L. apply (g_par0 X m e so par ip); eauto.
  - intros R. destruct (g_work0 R) as (W1 & W2 & W3 & W4 & W5). repeat (split; [assumption|]). intros m e _ L. apply W5; eauto.
Qed.

(** Everything but the answers and the error number is the same *)
Lemma good_same : forall c b xp s s', same s s' -> good c b xp s -> good c b xp s'.
Proof.
  intros c b xp s s' ((A1 & A2 & A3 & A4) & A5 & A6 & A7 & A8) H. destruct H as [g_fresh0 g_heap0 g_fds0 g_nodup0 g_static0 g_dyn0 g_offs0 g_sock0 g_live0 g_one0 g_acc0 g_excl0 g_est0 g_par0 g_tun0 g_work0].
  constructor; unfold fresh_ok, live, static_at, dynamic_at, no_static, works, connected, calm in *; rewrite ?A1, ?A2, ?A3, ?A4, ?A5, ?A6, ?A7; assumption.
Qed.

(** Another peer record with the same socket and session *)
Lemma good_peer : forall c b n p s, good c b (Some n) s -> p_sock p = p_sock (s_peers s n) -> p_off p = p_off (s_peers s n) ->
  good c b (Some n) (set_peers (upd (s_peers s) n p) s).
Proof.
  intros c b n p s H Ps Po.
  assert (Es : forall m, p_sock (upd (s_peers s) n p m) = p_sock (s_peers s m)).
  { intros m. unfold upd. destruct (N.eqb_spec m n) as [->|]; [exact Ps | reflexivity]. }
  assert (Eo : forall m, p_off (upd (s_peers s) n p m) = p_off (s_peers s m)).
  { intros m. unfold upd. destruct (N.eqb_spec m n) as [->|]; [exact Po | reflexivity]. }
  assert (Ex : forall m, Some n <> Some m -> upd (s_peers s) n p m = s_peers s m).
  { intros m D. apply upd_other. congruence. }
  destruct H as [g_fresh0 g_heap0 g_fds0 g_nodup0 g_static0 g_dyn0 g_offs0 g_sock0 g_live0 g_one0 g_acc0 g_excl0 g_est0 g_par0 g_tun0 g_work0]. constructor; unfold fresh_ok, live, static_at, dynamic_at, no_static, works, connected, calm in *; cbn [s_fds s_next s_heap s_peers s_tuns s_queue s_skerr set_peers] in *; try assumption.
  - intros id so m H1 H2. rewrite Es. eauto.
  - intros id so par H1 H2. destruct (g_offs0 id so par H1 H2) as (m & e & L & E). exists m, e. rewrite Eo. auto.
  - intros m id. rewrite Es. apply g_sock0.
  - intros m e. rewrite Eo. apply g_live0.
  - intros m1 m2 e f. rewrite !Eo. apply g_one0.
  - intros m e D. rewrite Eo, (Ex m D). apply g_est0; exact D.
  - intros X m e so par ip D. rewrite Eo, Es. apply g_par0; assumption.
  - intros t f H1 H2. destruct (g_tun0 t f H1 H2) as (m & e & L & E). exists m, e. rewrite Eo. auto.
  - intros R. destruct (g_work0 R) as (W1 & W2 & W3 & W4 & W5). repeat (split; [assumption|]). split.
    + intros m e. rewrite Eo. apply W4.
    + intros m e D. rewrite Eo, (Ex m D). apply W5; exact D.
Qed.

Lemma NoDup_map_filter : forall A (f : A -> N) g l, NoDup (map f l) -> NoDup (map f (filter g l)).
Proof.
  intros A f g l. induction l as [|x l IH]; intros H; [constructor|]. cbn in *. inversion H as [|? ? Hn Hd]; subst. destruct (g x); [|auto]. cbn. constructor; [|auto].
  intros X. apply in_map_iff in X. destruct X as (y & E & Hy). apply filter_In in Hy. apply Hn. rewrite <- E. apply in_map. tauto.
Qed.
Lemma NoDup_app_l : forall (l1 l2 : list N), NoDup (l1 ++ l2) -> NoDup l1 /\ NoDup l2 /\ forall x, In x l1 -> ~ In x l2.
Proof.
  induction l1 as [|x l1 IH]; intros l2 H; [repeat split; [constructor | exact H | intros x []]|]. cbn in H. inversion H as [|? ? Hn Hd]; subst.
  destruct (IH l2 Hd) as (A & B & D). split; [constructor; [|exact A]; intros X; apply Hn, in_or_app; auto|]. split; [exact B|].
  intros y [<-|Hy] Hy2; [apply Hn, in_or_app; auto | exact (D y Hy Hy2)].
Qed.
Lemma NoDup_app_r : forall (l1 l2 : list N), NoDup l1 -> NoDup l2 -> (forall x, In x l1 -> ~ In x l2) -> NoDup (l1 ++ l2).
Proof.
  induction l1 as [|x l1 IH]; intros l2 A B D; [exact B|]. inversion A as [|? ? Hn Hd]; subst. cbn. constructor.
  - intros X. apply in_app_or in X. destruct X as [X|X]; [contradiction | exact (D x (or_introl eq_refl) X)].
  - apply IH; auto. intros y Hy. apply D. right; exact Hy.
Qed.
Lemma in_names : forall x l, In x (names l) <-> exists t m, In t l /\ t_ses t = Some (x, m).
Proof.
  intros x l. unfold names. rewrite in_flat_map. split.
  - intros (t & Ht & Hx). destruct (t_ses t) as [[m y]|] eqn:E; [|destruct Hx]. destruct Hx as [<-|[]]. eauto.
  - intros (t & m & Ht & E). exists t. split; [exact Ht|]. rewrite E. left; reflexivity.
Qed.
Lemma names_filter : forall g l, NoDup (names l) -> NoDup (names (filter g l)).
Proof.
  intros g l. induction l as [|t l IH]; intros H; [constructor|]. change (names (t :: l)) with ((match t_ses t with Some (m, _) => [m] | None => [] end) ++ names l) in H.
  apply NoDup_app_l in H. destruct H as (A & B & D). cbn [filter]. destruct (g t); [|auto].
  change (names (t :: filter g l)) with ((match t_ses t with Some (m, _) => [m] | None => [] end) ++ names (filter g l)).
  apply NoDup_app_r; [exact A | auto |]. intros x Hx Hf. apply (D x Hx). apply in_names in Hf. destruct Hf as (u & m & Hu & E). apply filter_In in Hu. apply in_names. exists u, m. tauto.
Qed.
Lemma names_cons : forall t l, (forall m x, t_ses t = Some (m, x) -> name_used m l = false) -> NoDup (names l) -> NoDup (names (t :: l)).
Proof.
  intros t l H D. change (names (t :: l)) with ((match t_ses t with Some (m, _) => [m] | None => [] end) ++ names l).
  destruct (t_ses t) as [[m x]|]; [|exact D]. constructor; [|exact D]. intros X. apply in_names in X. destruct X as (u & y & Hu & E).
  exact (proj1 (name_used_spec m l) (H m x eq_refl) u m y Hu E eq_refl).
Qed.

(** ** Closing a peer's socket *)

Definition free_post' (n : N) (s s' : st) : Prop :=
  (forall m, m <> n -> s_peers s' m = s_peers s m) /\ s_peers s' n = with_sock None (s_peers s n) /\
  (forall id, static_at s id -> s_heap s' id = s_heap s id) /\ (forall id so, s_heap s' id = Some so -> s_heap s id = Some so) /\
  (forall id so par, s_heap s id = Some so -> so_kind so = Offload par -> s_heap s' id = Some so).

Lemma drop_socket : forall c b n id so s, good c b (Some n) s -> s_heap s id = Some so -> so_kind so = Dynamic n ->
  good c b (Some n) (set_peers (upd (s_peers s) n (with_sock None (s_peers s n))) (set_heap (upd (s_heap s) id None)
     (set_tuns (filter (fun t => negb (on_fd id t)) (s_tuns s)) (set_fds (filter (fun k => negb (k_fd k =? id)) (s_fds s)) s)))).
Proof.
  intros c b n id so s H Hi Hk. pose proof H as G. destruct H as [g_fresh0 g_heap0 g_fds0 g_nodup0 g_static0 g_dyn0 g_offs0 g_sock0 g_live0 g_one0 g_acc0 g_excl0 g_est0 g_par0 g_tun0 g_work0].
  assert (Hp : p_sock (s_peers s n) = Some id) by (eapply g_dyn0; eassumption).
  assert (Live : forall m e, live s m e -> e_sock e <> id).
  { intros m e L E. destruct (g_live0 m e L) as (so' & ip & par & A & B & _). rewrite E, Hi in A. congruence. }
  assert (T : filter (fun t => negb (on_fd id t)) (s_tuns s) = s_tuns s).
  { apply filter_id. intros t Ht. unfold on_fd. destruct (t_fd t) as [f|] eqn:Ef; [|reflexivity]. destruct (g_tun0 t f Ht Ef) as (m & e & L & E). specialize (Live m e L). lia. }
  rewrite T.
  assert (Eo : forall m, p_off (upd (s_peers s) n (with_sock None (s_peers s n)) m) = p_off (s_peers s m)).
  { intros m. unfold upd. destruct (N.eqb_spec m n) as [->|]; reflexivity. }
  assert (Ex : forall m, Some n <> Some m -> upd (s_peers s) n (with_sock None (s_peers s n)) m = s_peers s m).
  { intros m D. apply upd_other. congruence. }
  assert (Hh : forall i so', upd (s_heap s) id None i = Some so' -> i <> id /\ s_heap s i = Some so').
  { intros i so' E. unfold upd in E. destruct (N.eqb_spec i id); [discriminate | auto]. }
  assert (Hb : forall i so', i <> id -> s_heap s i = Some so' -> upd (s_heap s) id None i = Some so').
  { intros i so' D E. rewrite upd_other; assumption. }
  assert (Kf : forall k, In k (s_fds s) -> k_fd k <> id -> In k (filter (fun k => negb (k_fd k =? id)) (s_fds s))).
  { intros k Hk' D. apply filter_In. split; [exact Hk' | lia]. }
  assert (Stat : forall i, static_at s i -> i <> id).
  { intros i (so' & A & B) ->. congruence. }
  constructor; unfold fresh_ok, live, works, connected, calm in *; cbn [s_fds s_next s_heap s_peers s_tuns s_queue s_skerr set_peers set_heap set_tuns set_fds] in *.
  - destruct g_fresh0 as (F1 & F2 & F3). split; [|split; [|exact F3]].
    + intros k Hk'. apply filter_In in Hk'. apply F1; tauto.
    + intros i so' E. destruct (Hh i so' E). eapply F2; eassumption.
  - intros i so' E. destruct (Hh i so' E) as (D & E'). destruct (g_heap0 i so' E') as (A & r & B). split; [exact A|]. exists r. apply Kf; [exact B | exact D].
  - intros k Hk'. apply filter_In in Hk'. destruct Hk' as (A & B). destruct (g_fds0 k A) as (so' & E). exists so'. apply Hb; [lia | exact E].
  - apply NoDup_map_filter. exact g_nodup0.
  - intros i. rewrite g_static0. unfold static_at. cbn [s_heap set_peers set_heap]. split; intros (so' & A & B).
    + exists so'. split; [|exact B]. apply Hb; [|exact A]. apply Stat. exists so'. auto.
    + destruct (Hh i so' A). eauto.
  - intros i so' m E K. destruct (Hh i so' E) as (D & E'). pose proof (g_dyn0 i so' m E' K) as X. unfold upd. destruct (N.eqb_spec m n) as [->|]; [congruence | exact X].
  - intros i so' par E K. destruct (Hh i so' E) as (D & E'). destruct (g_offs0 i so' par E' K) as (m & e & L & Q). exists m, e. rewrite Eo. auto.
  - intros m i Q. destruct (N.eqb_spec m n) as [->|D]; [rewrite upd_same in Q; discriminate|]. rewrite upd_other in Q by exact D.
    destruct (g_sock0 m i Q) as [(so' & A & B)|(so' & A & B)]; [left | right]; exists so'; (split; [|exact B]); cbn [s_heap set_peers set_heap]; apply Hb; try exact A; intros ->; congruence.
  - intros m e. rewrite Eo. intros L. destruct (g_live0 m e L) as (so' & ip & par & A & B). exists so', ip, par. split; [|exact B]. apply Hb; [exact (Live m e L) | exact A].
  - intros m1 m2 e f. rewrite !Eo. apply g_one0.
  - intros i so' par E K. destruct (Hh i so' E) as (D & E'). destruct (g_acc0 i so' par E' K) as (A & B). split; [exact A|]. intros so2 E2. destruct (Hh par so2 E2) as (_ & E3). apply B; exact E3.
  - intros X i1 d m i2 t E1 K1 E2 K2. destruct (Hh i1 d E1). destruct (Hh i2 t E2). eapply g_excl0; eassumption.
  - intros m e D. rewrite Eo, (Ex m D). apply g_est0; exact D.
  - intros X m e so' par ip D. rewrite Eo, (Ex m D). intros L E K Ip. destruct (Hh _ so' E) as (_ & E').
    destruct (g_par0 X m e so' par ip D L E' K Ip) as [(so2 & A & B)|(A & B & so2 & A2 & B2)].
    + left. exists so2. cbn [s_heap set_peers set_heap]. split; [|exact B]. apply Hb; [|exact A]. intros ->. congruence.
    + right. split; [|split; [exact B|]].
      * intros i so3 E3 K3. cbn [s_heap set_peers set_heap] in E3. destruct (Hh i so3 E3). eapply A; eassumption.
      * exists so2. cbn [s_heap set_peers set_heap]. split; [|exact B2]. apply Hb; [|exact A2]. intros ->. rewrite Hi in A2. congruence.
  - intros t f H1 H2. destruct (g_tun0 t f H1 H2) as (m & e & L & E). exists m, e. rewrite Eo. auto.
  - intros R. destruct (g_work0 R) as (W1 & W2 & W3 & W4 & W5). repeat (split; [assumption|]). split.
    + intros m e. rewrite Eo. apply W4.
    + intros m e D. rewrite Eo, (Ex m D). intros L. apply Kf; [apply W5; assumption | exact (Live m e L)].
Qed.

Lemma free_socket_good : forall c b n s, good c b (Some n) s ->
  runs (free_socket n) s (fun _ s' => good c b (Some n) s' /\ free_post' n s s').
Proof.
  intros c b n s H. unfold free_socket, get_peer. apply runs_bind. change (runs (fun s0 => Done (s_peers s0 n) s0) s ?Q) with (Q (s_peers s n) s).
  cbn beta. destruct (p_sock (s_peers s n)) as [id|] eqn:Ep.
  2: { apply runs_ret. split; [exact H|]. unfold free_post'. repeat split; auto. destruct (s_peers s n); cbn in *. subst. reflexivity. }
  assert (Id : with_sock None (s_peers s n) = with_sock None (s_peers s n)) by reflexivity.
  apply runs_get. destruct (g_sock _ _ _ _ H n id Ep) as [(so & A & B)|(so & A & B)]; rewrite A, B.
  - (* static *)
    apply runs_bind, runs_ret. unfold put_peer. apply runs_put'. split.
    + clear Id. pose proof H as G. destruct H as [g_fresh0 g_heap0 g_fds0 g_nodup0 g_static0 g_dyn0 g_offs0 g_sock0 g_live0 g_one0 g_acc0 g_excl0 g_est0 g_par0 g_tun0 g_work0].
      assert (Eo : forall m, p_off (upd (s_peers s) n (with_sock None (s_peers s n)) m) = p_off (s_peers s m)).
      { intros m. unfold upd. destruct (N.eqb_spec m n) as [->|]; reflexivity. }
      assert (Ex : forall m, Some n <> Some m -> upd (s_peers s) n (with_sock None (s_peers s n)) m = s_peers s m).
      { intros m D. apply upd_other. congruence. }
      constructor; unfold fresh_ok, live, static_at, dynamic_at, no_static, works, connected, calm in *; cbn [s_fds s_next s_heap s_peers s_tuns s_queue s_skerr set_peers] in *; try assumption.
      * intros i so' m E K. pose proof (g_dyn0 i so' m E K) as X. unfold upd. destruct (N.eqb_spec m n) as [->|]; [|exact X]. rewrite Ep in X. injection X as ->. congruence.
      * intros i so' par H1 H2. destruct (g_offs0 i so' par H1 H2) as (m & e & L & E). exists m, e. rewrite Eo. auto.
      * intros m i Q. destruct (N.eqb_spec m n) as [->|D]; [rewrite upd_same in Q; discriminate|]. rewrite upd_other in Q by exact D. apply g_sock0; exact Q.
      * intros m e. rewrite Eo. apply g_live0.
      * intros m1 m2 e f. rewrite !Eo. apply g_one0.
      * intros m e D. rewrite Eo, (Ex m D). apply g_est0; exact D.
      * intros X m e so' par ip D. rewrite Eo, (Ex m D). apply g_par0; assumption.
      * intros t f H1 H2. destruct (g_tun0 t f H1 H2) as (m & e & L & E). exists m, e. rewrite Eo. auto.
      * intros R. destruct (g_work0 R) as (W1 & W2 & W3 & W4 & W5). repeat (split; [assumption|]). split.
        -- intros m e. rewrite Eo. apply W4.
        -- intros m e D. rewrite Eo, (Ex m D). apply W5; exact D.
    + unfold free_post'. cbn [s_peers s_heap set_peers]. repeat split; auto; [intros m D; apply upd_other; exact D | apply upd_same].
  - (* dynamic *)
    rewrite N.eqb_refl. destruct (g_heap _ _ _ _ H id so A) as (Fd & r & Hin).
    eapply runs_then; [eapply socket_close_effect; [exact A | exact Fd |]|].
    { apply (in_map k_fd) in Hin. exact Hin. }
    cbn beta. intros _ s' ->. unfold put_peer. apply runs_put'. split; [apply (drop_socket c b n id so s H A B)|].
    unfold free_post'. cbn [s_peers s_heap set_peers set_heap set_tuns set_fds]. split; [intros m D; apply upd_other; exact D|]. split; [apply upd_same|]. split; [|split].
    + intros i (so' & E & K). apply upd_other. intros ->. congruence.
    + intros i so' E. unfold upd in E. destruct (N.eqb_spec i id); [discriminate | exact E].
    + intros i so' par E K. rewrite upd_other; [exact E|]. intros ->. congruence.
Qed.
