(** Two nodes connect, part 2: what the handshake functions do when nothing stands in
    the way. *)
From Verif Require Import Base BaseLemmas BufferModel BufferProofs NonceModel MethodModel HandshakeModel HandshakeSpec HandshakeProofs HandshakeProofs2 HandshakeProofs3
  NodeModel NodeSpec NodeKeepSpec NodeSteps NodeProofs NodeWire NodeConnectSpec NodeConnect.
From Coq Require Import Lia ZifyBool ZifyNat ZifyN.
Local Open Scope Z_scope.

(** ** The computation succeeds with a result and a state of which [Q] holds *)
Definition does {A} (m : M A) (n : node) (Q : A -> node -> Prop) : Prop := exists a n', m n = Ok (a, n') /\ Q a n'.

Lemma does_bnd : forall A B (m : M A) (f : A -> M B) n Q, does m n (fun a n1 => does (f a) n1 Q) -> does (bnd m f) n Q.
Proof.
  intros A B m f n Q (a & n1 & H1 & b & n2 & H2 & H3). exists b, n2. split; [|exact H3]. unfold bnd. rewrite H1. exact H2.
Qed.
Lemma does_ret : forall A (a : A) n (Q : A -> node -> Prop), Q a n -> does (ret a) n Q.
Proof. intros A a n Q H. exists a, n. split; [reflexivity | exact H]. Qed.
Lemma does_gets : forall A (f : node -> A) n (Q : A -> node -> Prop), Q (f n) n -> does (gets f) n Q.
Proof. intros A f n Q H. exists (f n), n. split; [reflexivity | exact H]. Qed.
Lemma does_modn : forall f n (Q : unit -> node -> Prop), Q tt (f n) -> does (modn f) n Q.
Proof. intros f n Q H. exists tt, (f n). split; [reflexivity | exact H]. Qed.
Lemma does_emit : forall o n (Q : unit -> node -> Prop), Q tt (set_n_out ((n_now n, o) :: n_out n) n) -> does (emit o) n Q.
Proof. intros o n Q H. apply does_modn. exact H. Qed.
Lemma does_lift : forall A (r : res A) a n (Q : A -> node -> Prop), r = Ok a -> Q a n -> does (lift r) n Q.
Proof. intros A r a n Q E H. exists a, n. split; [unfold lift; rewrite E; reflexivity | exact H]. Qed.
Lemma does_mono : forall A (m : M A) n (Q Q' : A -> node -> Prop), does m n Q -> (forall a n', Q a n' -> Q' a n') -> does m n Q'.
Proof. intros A m n Q Q' (a & n' & H1 & H2) H. exists a, n'. split; [exact H1 | apply H; exact H2]. Qed.
Lemma does_pop : forall n (Q : N -> node -> Prop), Q (nth 0 (n_orc n) 0%N) (set_n_orc (skipn 1 (n_orc n)) n) -> does pop n Q.
Proof.
  intros n Q H. unfold does, pop. destruct (n_orc n) as [|x r] eqn:E; cbn [nth skipn] in H.
  - exists 0%N, n. split; [reflexivity|]. replace n with (set_n_orc [] n); [exact H|]. rewrite <- E. destruct n; reflexivity.
  - exists x, (set_n_orc r n). split; [reflexivity | exact H].
Qed.

(** ** Finding a peer in the list *)
Definition others (l1 l2 : list peer) (pid : N) : Prop := forall q, In q (l1 ++ l2) -> p_id q <> pid.

Lemma find_mid : forall l1 l2 p, others l1 l2 (p_id p) -> find_id (l1 ++ p :: l2) (p_id p) = Some p.
Proof.
  intros l1 l2 p. induction l1 as [|x l1 IH]; intros H; unfold find_id in *; cbn [app find].
  - rewrite N.eqb_refl. reflexivity.
  - destruct (N.eqb_spec (p_id x) (p_id p)) as [E|E]; [exfalso; apply (H x); [left; reflexivity | exact E]|]. apply IH. intros q Hq. apply H. right. exact Hq.
Qed.
Lemma upd_others : forall l pid f, (forall q, In q l -> p_id q <> pid) -> upd_id l pid f = l.
Proof.
  induction l as [|x l IH]; intros pid f H; [reflexivity|]. unfold upd_id in *. cbn [map].
  destruct (N.eqb_spec (p_id x) pid) as [E|E]; [exfalso; apply (H x); [left; reflexivity | exact E]|]. f_equal. apply IH. intros q Hq. apply H. right. exact Hq.
Qed.
Lemma upd_mid : forall l1 l2 p f, others l1 l2 (p_id p) -> upd_id (l1 ++ p :: l2) (p_id p) f = l1 ++ f p :: l2.
Proof.
  intros l1 l2 p f H. unfold upd_id. rewrite map_app. cbn [map]. rewrite N.eqb_refl.
  change (map (fun p0 => if N.eqb (p_id p0) (p_id p) then f p0 else p0)) with (fun l => upd_id l (p_id p) f). cbv beta.
  rewrite !upd_others by (intros q Hq; apply H; apply in_or_app; auto). reflexivity.
Qed.

(** ** The state while one peer is worked on *)
Record stt (n0 : node) (l1 l2 : list peer) (p : peer) (l : list (Z * out)) (orc : list N) (n : node) : Prop := mk_stt {
  st_peers : n_peers n = l1 ++ p :: l2;
  st_now : n_now n = n_now n0;
  st_cur : n_cur n = n_cur n0;
  st_prev : n_prev n = n_prev n0;
  st_floating : n_floating n = n_floating n0;
  st_orc : n_orc n = orc;
  st_out : n_out n = l ++ n_out n0
}.

(** what sending packets leaves alone *)
Definition core (p : peer) :=
  ((p_id p, p_key p, p_group p, p_remotes p, p_floating p, p_mtu p), (p_conf p, p_iface p, p_sock p, p_laddr p, p_addr p, p_state p),
   (p_eh_to p, p_sess p, p_serial p, p_cache p)).

Section Peer.
Variable n0 : node.
Variables l1 l2 : list peer.
Variable pid : N.
Hypothesis Hoth : others l1 l2 pid.
Notation st := (stt n0 l1 l2).

Lemma does_rd : forall p l orc n (Q : peer -> node -> Prop), st p l orc n -> p_id p = pid -> Q p n -> does (rd pid) n Q.
Proof.
  intros p l orc n Q S E H. exists p, n. split; [|exact H]. unfold rd. rewrite (st_peers _ _ _ _ _ _ _ S). subst pid. rewrite find_mid by exact Hoth. reflexivity.
Qed.
Lemma does_wr : forall f p l orc n (Q : unit -> node -> Prop), st p l orc n -> p_id p = pid -> (forall n', st (f p) l orc n' -> Q tt n') -> does (wr pid f) n Q.
Proof.
  intros f p l orc n Q S E H. exists tt, (set_n_peers (upd_id (n_peers n) pid f) n). split.
  - unfold wr. rewrite (st_peers _ _ _ _ _ _ _ S). subst pid. rewrite find_mid by exact Hoth. reflexivity.
  - apply H. destruct S as [S1 S2 S3 S4 S5 S6 S7]. constructor; try assumption. cbn [n_peers set_n_peers]. rewrite S1. subst pid. apply upd_mid. exact Hoth.
Qed.
Lemma st_emit : forall o p l orc n, st p l orc n -> st p ((n_now n0, o) :: l) orc (set_n_out ((n_now n, o) :: n_out n) n).
Proof. intros o p l orc n [S1 S2 S3 S4 S5 S6 S7]. constructor; try assumption. cbn [n_out set_n_out app]. rewrite S2, S7. reflexivity. Qed.
Lemma does_out : forall o p l orc n (Q : unit -> node -> Prop), st p l orc n -> (forall n', st p ((n_now n0, o) :: l) orc n' -> Q tt n') -> does (emit o) n Q.
Proof. intros o p l orc n Q S H. apply does_emit. apply H. apply st_emit. exact S. Qed.
Lemma does_next : forall p l orc n (Q : N -> node -> Prop), st p l orc n -> (forall n', st p l (skipn 1 orc) n' -> Q (nth 0 orc 0%N) n') -> does pop n Q.
Proof.
  intros p l orc n Q [S1 S2 S3 S4 S5 S6 S7] H. apply does_pop. rewrite S6. apply H. constructor; try assumption. reflexivity.
Qed.
Lemma does_flip : forall p l orc n (Q : bool -> node -> Prop), st p l orc n -> (forall n', st p l (skipn 1 orc) n' -> Q (negb (N.eqb (nth 0 orc 0%N) 0)) n') -> does flip n Q.
Proof. intros p l orc n Q S H. unfold flip. apply does_bnd. eapply does_next; [exact S|]. intros n' S'. apply does_ret. exact (H n' S'). Qed.
Lemma does_rand : forall lo hi p l orc n (Q : Z -> node -> Prop), st p l orc n ->
  (forall n' z, z = lo + Z.of_N (nth 0 orc 0%N) mod (hi - lo) -> st p l (skipn 1 orc) n' -> Q z n') -> does (rand lo hi) n Q.
Proof. intros lo hi p l orc n Q S H. unfold rand. apply does_bnd. eapply does_next; [exact S|]. intros n' S'. apply does_ret. exact (H n' _ eq_refl S'). Qed.

Lemma does_schedule : forall p l orc n (Q : unit -> node -> Prop), st p l orc n -> p_id p = pid ->
  (forall n' tk, st (set_p_task tk p) l orc n' -> Q tt n') -> does (schedule_peer_task pid) n Q.
Proof.
  intros p l orc n Q S E H. unfold schedule_peer_task. eapply does_wr; [exact S | exact E|]. intros n' S'.
  destruct (sched_is p) as [tk Et]. unfold sched in Et. rewrite Et in S'. exact (H n' tk S').
Qed.

(** ** Sending *)
Lemma does_send : forall sk a o p l orc n (Q : unit -> node -> Prop), st p l orc n -> p_id p = pid ->
  match sk with SBound _ => True | SDyn _ _ => sk = SDyn pid (match sk with SDyn _ i => i | _ => 0%N end) /\ p_sock p = Some sk end ->
  (forall n' p' orc', st p' ((n_now n0, o a) :: l) orc' n' -> core p' = core p -> Q tt n') ->
  does (send_packet (Some sk) (Some a) (Some pid) o) n Q.
Proof.
  intros sk a o p l orc n Q S E Hsk H. unfold send_packet. apply does_bnd.
  assert (Ha : sock_alive (n_peers n) sk = true).
  { destruct sk as [k|ow i]; [reflexivity|]. destruct Hsk as [X Hs]. injection X as ->. unfold sock_alive. rewrite (st_peers _ _ _ _ _ _ _ S).
    assert (F : find_id (l1 ++ p :: l2) pid = Some p) by (rewrite <- E; apply find_mid; rewrite E; exact Hoth). rewrite F, Hs. cbn [sock_eqb]. rewrite !N.eqb_refl. reflexivity. }
  exists tt, n. split; [unfold use_sock, bnd, gets; rewrite Ha; reflexivity|]. apply does_bnd. eapply does_out; [exact S|]. intros n1 S1.
  apply does_bnd. eapply does_flip; [exact S1|]. intros n2 S2. unfold when. destruct (negb _).
  - apply does_bnd. eapply does_rd; [exact S2 | exact E|]. destruct (p_next_hs p).
    + apply does_ret. exact (H n2 p _ S2 eq_refl).
    + unfold schedule_handshake_default, schedule_handshake, set_next_handshake. apply does_bnd. unfold handshake_default_rand. eapply does_rand; [exact S2|]. intros n3 z _ S3.
      apply does_bnd. apply does_bnd. apply does_gets. eapply does_wr; [exact S3 | exact E|]. intros n4 S4.
      eapply does_schedule; [exact S4 | exact E|]. intros n5 tk S5. exact (H n5 _ _ S5 eq_refl).
  - apply does_ret. exact (H n2 p _ S2 eq_refl).
Qed.
End Peer.

Lemma core_id : forall p q, core p = core q -> p_id p = p_id q. Proof. intros p q E. unfold core in E. congruence. Qed.
