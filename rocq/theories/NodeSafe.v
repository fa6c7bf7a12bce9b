(** The node never dereferences anything missing: weakest preconditions of the
    functions of the node model, first those that leave most of a peer alone *)
From Verif Require Import Base BufferModel NonceModel MethodModel HandshakeModel NodeModel NodeSteps NodeWf.
From Coq Require Import Lia ZifyBool ZifyNat ZifyN Sorted.
Local Open Scope Z_scope.

(** The computation ends normally in a state with [Q], or with [exit_fatal] *)
Definition wp {A} (m : M A) (n : node) (Q : A -> node -> Prop) : Prop :=
  match m n with Ok (x, n') => Q x n' | Fatal => True | _ => False end.

Lemma wp_bnd : forall A B (m : M A) (f : A -> M B) n Q, wp m n (fun x n' => wp (f x) n' Q) -> wp (bnd m f) n Q.
Proof. intros A B m f n Q H. unfold wp, bnd in *. destruct (m n) as [[x n']| | |]; assumption. Qed.
Lemma wp_ret : forall A (x : A) n (Q : A -> node -> Prop), Q x n -> wp (ret x) n Q.
Proof. intros A x n Q H. exact H. Qed.
Lemma wp_gets : forall A (f : node -> A) n (Q : A -> node -> Prop), Q (f n) n -> wp (gets f) n Q.
Proof. intros A f n Q H. exact H. Qed.
Lemma wp_modn : forall f n (Q : unit -> node -> Prop), Q tt (f n) -> wp (modn f) n Q.
Proof. intros f n Q H. exact H. Qed.
Lemma wp_when : forall (b : bool) m n (Q : unit -> node -> Prop), (b = true -> wp m n Q) -> (b = false -> Q tt n) -> wp (when b m) n Q.
Proof. intros b m n Q H1 H2. unfold when. destruct b; [exact (H1 eq_refl) | exact (H2 eq_refl)]. Qed.
Lemma wp_conseq : forall A (m : M A) n (Q R : A -> node -> Prop), wp m n Q -> (forall x n', m n = Ok (x, n') -> Q x n' -> R x n') -> wp m n R.
Proof. intros A m n Q R H HR. unfold wp in *. destruct (m n) as [[x n']| | |]; auto. Qed.
Lemma wp_lift : forall A (r : res A) n (Q : A -> node -> Prop), (exists x, r = Ok x /\ Q x n) -> wp (lift r) n Q.
Proof. intros A r n Q (x & -> & H). exact H. Qed.
Lemma wp_rd : forall pid n p (Q : peer -> node -> Prop), find_id (n_peers n) pid = Some p -> Q p n -> wp (rd pid) n Q.
Proof. intros pid n p Q Hf H. unfold wp, rd. rewrite Hf. exact H. Qed.
Lemma wp_fatal : forall A n (Q : A -> node -> Prop), wp exit_fatal n Q.
Proof. intros A n Q. exact I. Qed.

(** ** What of a peer decides if something is missing *)
Definition is_some {A} (x : option A) : bool := match x with Some _ => true | None => false end.
Definition rc (r : remote) := (r_addrs r, r_cur r).
Definition core (p : peer) :=
  (p_id p, p_conf p, p_state p, p_sock p, p_addr p, is_some (p_sess p), map rc (p_remotes p), p_next_remote p).

Definition rem_ok (p : peer) : Prop := forall i, p_remotes p <> [] -> p_next_remote p = Some i ->
  exists r, nth_error (p_remotes p) i = Some r /\ (r_addrs r = [] \/ (r_cur r < length (r_addrs r))%nat).

Section Safe.
Variable P : params.

Record exp (p : peer) : Prop := mk_exp {
  e_sock : forall o i, p_sock p = Some (SDyn o i) -> o = p_id p /\ p_remotes p <> [];
  e_est : p_state p = Established -> p_addr p <> None /\ p_sess p <> None /\ p_sock p <> None;
  e_rem : p_state p <> Inactive -> rem_ok p;
  e_dyn : p_conf p = CDynamic -> p_remotes p = [] /\ allow_verify P = true
}.

Lemma map_nil_iff : forall A B (f : A -> B) l, map f l = [] <-> l = [].
Proof. intros A B f l. destruct l; split; intros H; try reflexivity; discriminate. Qed.
Lemma remotes_core : forall p q, map rc (p_remotes p) = map rc (p_remotes q) -> p_remotes p = [] -> p_remotes q = [].
Proof. intros p q E H. rewrite H in E. cbn in E. symmetry in E. apply map_nil_iff in E. exact E. Qed.
Lemma rem_ok_core : forall p q, map rc (p_remotes q) = map rc (p_remotes p) -> p_next_remote q = p_next_remote p -> rem_ok p -> rem_ok q.
Proof.
  intros p q E En H i Hn Hi. rewrite En in Hi.
  assert (Hn' : p_remotes p <> []) by (intros X; apply Hn; eapply remotes_core; [symmetry; exact E | exact X]).
  destruct (H i Hn' Hi) as (r & Hr & Hc). assert (X : nth_error (map rc (p_remotes q)) i = Some (rc r)) by (rewrite E; apply map_nth_error; exact Hr).
  rewrite nth_error_map in X. destruct (nth_error (p_remotes q) i) as [r'|]; [|discriminate]. exists r'. split; [reflexivity|].
  cbn in X. injection X as X1 X2. rewrite X1, X2. exact Hc.
Qed.
Lemma exp_core : forall p q, core q = core p -> exp p -> exp q.
Proof.
  intros p q E [S H R D]. unfold core in E. injection E as E1 E2 E3 E4 E5 E6 E7 E8. constructor.
  - intros o i Hs. rewrite E4 in Hs. destruct (S o i Hs) as [A B]. split; [congruence|]. intros X. apply B. eapply remotes_core; eassumption.
  - intros He. rewrite E3 in He. destruct (H He) as (A & B & C). rewrite E4, E5. repeat split; try assumption.
    destruct (p_sess q), (p_sess p); cbn in E6; congruence.
  - intros Hi. rewrite E3 in Hi. eapply rem_ok_core; [exact E7 | exact E8 | exact (R Hi)].
  - intros Hd. rewrite E2 in Hd. destruct (D Hd) as [A B]. split; [|exact B]. eapply remotes_core; [symmetry; exact E7 | exact A].
Qed.

(** ** The invariant *)
Record ex (n : node) : Prop := mk_ex {
  x_ids : ids_ok n;
  x_peers : forall q p, find_id (n_peers n) q = Some p -> exp p;
  x_eth : forall e d, In e (n_eth n) -> e_peer e = Some d -> In d (ids (n_peers n));
  x_ver : forall j, In j (n_verifying n) -> exists k, v_sock j = SBound k
}.

(** ** What changes *)
Record frame (n n' : node) : Prop := mk_frame {
  fm_ids : ids (n_peers n') = ids (n_peers n);
  fm_next : n_next_id n' = n_next_id n;
  fm_now : n_now n' = n_now n;
  fm_eth : forall e d, In e (n_eth n') -> e_peer e = Some d -> In e (n_eth n) \/ In d (ids (n_peers n));
  fm_ver : forall j, In j (n_verifying n') -> In j (n_verifying n) \/ exists k, v_sock j = SBound k
}.
Definition fcore (n : node) (q : N) := option_map core (find_id (n_peers n) q).
(** only the cores of peers in [S] change *)
Definition ch (S : N -> Prop) (n n' : node) : Prop := frame n n' /\ forall q, ~ S q -> fcore n' q = fcore n q.
Definition lk := ch (fun _ => False).

Lemma frame_refl : forall n, frame n n.
Proof. intros n. constructor; try reflexivity; intros; left; assumption. Qed.
Lemma frame_trans : forall a b c, frame a b -> frame b c -> frame a c.
Proof.
  intros a b c [A1 A2 A3 A4 A5] [B1 B2 B3 B4 B5]. constructor; try congruence.
  - intros e d He Hd. destruct (B4 e d He Hd) as [X | X]; [exact (A4 e d X Hd) | right; rewrite <- A1; exact X].
  - intros j Hj. destruct (B5 j Hj) as [X | X]; [exact (A5 j X) | right; exact X].
Qed.
Lemma ch_refl : forall S n, ch S n n.
Proof. intros S n. split; [apply frame_refl | reflexivity]. Qed.
Lemma ch_trans : forall S a b c, ch S a b -> ch S b c -> ch S a c.
Proof. intros S a b c [F1 A] [F2 B]. split; [eapply frame_trans; eassumption|]. intros q Hq. rewrite (B q Hq). exact (A q Hq). Qed.
Lemma ch_mono : forall (S T : N -> Prop) a b, (forall q, S q -> T q) -> ch S a b -> ch T a b.
Proof. intros S T a b H [F A]. split; [exact F|]. intros q Hq. apply A. intros X. apply Hq. apply H. exact X. Qed.
Lemma lk_ch : forall S a b, lk a b -> ch S a b.
Proof. intros S a b H. eapply ch_mono; [|exact H]. intros q []. Qed.
Lemma lk_trans : forall a b c, lk a b -> lk b c -> lk a c.
Proof. intros. eapply ch_trans; eassumption. Qed.

Lemma has_iff : forall l q, In q (ids l) <-> exists p, find_id l q = Some p.
Proof.
  intros l q. unfold ids, find_id. split.
  - induction l as [|x l IH]; intros H; [destruct H|]. cbn [find]. destruct (N.eqb_spec (p_id x) q) as [E|E]; [exists x; reflexivity|].
    destruct H as [H|H]; [congruence | exact (IH H)].
  - intros (p & Hp). apply find_some in Hp. destruct Hp as [Hp E]. apply N.eqb_eq in E. subst. apply in_map. exact Hp.
Qed.
Lemma frame_has : forall n n' q p, frame n n' -> find_id (n_peers n) q = Some p -> exists p', find_id (n_peers n') q = Some p'.
Proof. intros n n' q p F H. apply has_iff. rewrite (fm_ids _ _ F). apply has_iff. exists p. exact H. Qed.
Lemma ch_find : forall S n n' q p, ch S n n' -> ~ S q -> find_id (n_peers n) q = Some p ->
  exists p', find_id (n_peers n') q = Some p' /\ core p' = core p.
Proof.
  intros S n n' q p [_ A] Hq Hf. specialize (A q Hq). unfold fcore in A. rewrite Hf in A.
  destruct (find_id (n_peers n') q) as [p'|]; [|discriminate]. exists p'. split; [reflexivity|]. cbn in A. congruence.
Qed.
Lemma lk_find : forall n n' q p, lk n n' -> find_id (n_peers n) q = Some p ->
  exists p', find_id (n_peers n') q = Some p' /\ core p' = core p.
Proof. intros n n' q p H Hf. exact (ch_find _ _ _ _ _ H (fun f => f) Hf). Qed.

Lemma ch_ex : forall S n n', ch S n n' -> ex n ->
  (forall q p', S q -> find_id (n_peers n') q = Some p' -> exp p') ->
  (forall q, {S q} + {~ S q}) -> ex n'.
Proof.
  intros S n n' [F A] [I X E V] Hp D. constructor.
  - destruct I as [I1 I2]. split; rewrite (fm_ids _ _ F); [exact I1 | rewrite (fm_next _ _ F); exact I2].
  - intros q p Hq. destruct (D q) as [Hs|Hs]; [exact (Hp q p Hs Hq)|]. specialize (A q Hs). unfold fcore in A. rewrite Hq in A.
    destruct (find_id (n_peers n) q) as [p0|] eqn:E0; [|discriminate]. cbn in A. injection A as A. eapply exp_core; [|exact (X q p0 E0)].
    unfold core. congruence.
  - intros e d He Hd. rewrite (fm_ids _ _ F). destruct (fm_eth _ _ F e d He Hd) as [Y | Y]; [exact (E e d Y Hd) | exact Y].
  - intros j Hj. destruct (fm_ver _ _ F j Hj) as [Y | Y]; [exact (V j Y) | exact Y].
Qed.
Lemma lk_ex : forall n n', lk n n' -> ex n -> ex n'.
Proof. intros n n' H X. eapply ch_ex; [exact H | exact X | intros q p [] | intros q; right; intros []]. Qed.
Definition at_ (pid : N) : N -> Prop := fun q => q = pid.
Lemma ch1_ex : forall pid n n' p', ch (at_ pid) n n' -> ex n -> find_id (n_peers n') pid = Some p' -> exp p' -> ex n'.
Proof.
  intros pid n n' p' H X Hf He. eapply ch_ex; [exact H | exact X | | intros q; apply N.eq_dec].
  intros q p1 E Hq. unfold at_ in E. subst q. congruence.
Qed.

(** ** Primitives *)
Lemma same_peers_lk : forall n n', n_peers n' = n_peers n -> n_next_id n' = n_next_id n -> n_now n' = n_now n ->
  n_eth n' = n_eth n -> n_verifying n' = n_verifying n -> lk n n'.
Proof.
  intros n n' E1 E2 E3 E4 E5. split.
  - constructor; try congruence; [rewrite E4 | rewrite E5]; intros; left; assumption.
  - intros q _. unfold fcore. rewrite E1. reflexivity.
Qed.
Lemma upd_ids : forall l pid f, keeps_id f -> ids (upd_id l pid f) = ids l.
Proof.
  intros l pid f Hk. unfold ids, upd_id. rewrite map_map. apply map_ext. intros p. destruct (N.eqb (p_id p) pid); [apply Hk | reflexivity].
Qed.
Lemma wr_ch : forall pid f n, keeps_id f -> ch (at_ pid) n (set_n_peers (upd_id (n_peers n) pid f) n).
Proof.
  intros pid f n Hk. split.
  - constructor; try reflexivity; [cbn [n_peers set_n_peers]; apply upd_ids; exact Hk | |]; intros; left; assumption.
  - intros q Hq. unfold fcore. cbn [n_peers set_n_peers]. rewrite find_id_upd by exact Hk. destruct (N.eqb_spec q pid) as [E|E]; [contradiction (Hq E) | reflexivity].
Qed.
Lemma wp_wr : forall pid f n p (Q : unit -> node -> Prop), find_id (n_peers n) pid = Some p -> keeps_id f ->
  (forall n', find_id (n_peers n') pid = Some (f p) -> ch (at_ pid) n n' -> Q tt n') -> wp (wr pid f) n Q.
Proof.
  intros pid f n p Q Hf Hk H. unfold wp, wr. rewrite Hf. apply H.
  - cbn [n_peers set_n_peers]. apply find_id_upd_same; assumption.
  - apply wr_ch. exact Hk.
Qed.
Lemma wp_wr_lk : forall pid f n p (Q : unit -> node -> Prop), find_id (n_peers n) pid = Some p -> (forall q, core (f q) = core q) ->
  (forall n', find_id (n_peers n') pid = Some (f p) -> lk n n' -> Q tt n') -> wp (wr pid f) n Q.
Proof.
  intros pid f n p Q Hf Hc H. assert (Hk : keeps_id f) by (intros q; specialize (Hc q); unfold core in Hc; congruence).
  eapply wp_wr; [exact Hf | exact Hk|]. intros n' Hf' [F A]. apply H; [exact Hf'|]. split; [exact F|]. intros q _.
  destruct (N.eq_dec q pid) as [->|E]; [|exact (A q E)]. unfold fcore. rewrite Hf, Hf'. cbn [option_map]. rewrite Hc. reflexivity.
Qed.
Lemma wp_pop : forall n (Q : N -> node -> Prop), (forall x n', n_peers n' = n_peers n -> lk n n' -> Q x n') -> wp pop n Q.
Proof.
  intros n Q H. unfold wp, pop. destruct (n_orc n); apply H; try reflexivity; [apply ch_refl|]. apply same_peers_lk; reflexivity.
Qed.
Lemma wp_flip : forall n (Q : bool -> node -> Prop), (forall x n', n_peers n' = n_peers n -> lk n n' -> Q x n') -> wp flip n Q.
Proof. intros n Q H. apply wp_bnd. apply wp_pop. intros x n' E L. apply wp_ret. exact (H _ n' E L). Qed.
Lemma wp_rand : forall lo hi n (Q : Z -> node -> Prop), (forall x n', n_peers n' = n_peers n -> lk n n' -> (lo < hi -> lo <= x < hi) -> Q x n') -> wp (rand lo hi) n Q.
Proof.
  intros lo hi n Q H. apply wp_bnd. apply wp_pop. intros x n' E L. apply wp_ret. apply (H _ n' E L). intros Hl.
  pose proof (Z.mod_pos_bound (Z.of_N x) (hi - lo)). lia.
Qed.
Lemma wp_emit : forall o n (Q : unit -> node -> Prop), (forall n', n_peers n' = n_peers n -> lk n n' -> Q tt n') -> wp (emit o) n Q.
Proof. intros o n Q H. apply wp_modn. apply H; [reflexivity|]. apply same_peers_lk; reflexivity. Qed.

Definition alive_sk (n : node) (sk : sock) : Prop := sock_alive (n_peers n) sk = true.
Lemma alive_lk : forall n n' sk, lk n n' -> alive_sk n sk -> alive_sk n' sk.
Proof.
  intros n n' sk L H. unfold alive_sk, sock_alive in *. destruct sk as [k|o i]; [reflexivity|].
  destruct (find_id (n_peers n) o) as [p|] eqn:E; [|discriminate]. destruct (lk_find _ _ _ _ L E) as (p' & -> & C).
  unfold core in C. injection C as _ _ _ -> _ _ _ _. exact H.
Qed.
Lemma alive_own : forall n pid p sk, ex n -> find_id (n_peers n) pid = Some p -> p_sock p = Some sk -> alive_sk n sk.
Proof.
  intros n pid p sk X Hf Hs. unfold alive_sk, sock_alive. destruct sk as [k|o i]; [reflexivity|].
  destruct (e_sock _ (x_peers _ X _ _ Hf) o i Hs) as [E _]. apply find_id_in in Hf as Hf'. destruct Hf' as [_ E1].
  assert (Eo : o = pid) by congruence. rewrite Eo in *. rewrite Hf, Hs. unfold sock_eqb. rewrite !N.eqb_refl. reflexivity.
Qed.
Lemma wp_use_sock : forall sk n (Q : unit -> node -> Prop), alive_sk n sk -> Q tt n -> wp (use_sock sk) n Q.
Proof. intros sk n Q H HQ. apply wp_bnd. apply wp_gets. unfold alive_sk in H. rewrite H. exact HQ. Qed.

(** ** Functions that only change timers, sessions and caches *)
Lemma core_sched : forall p, core (sched p) = core p.
Proof. intros p. destruct (sched_is p) as [t ->]. reflexivity. Qed.
Lemma wp_schedule : forall pid n p (Q : unit -> node -> Prop), find_id (n_peers n) pid = Some p ->
  (forall n', find_id (n_peers n') pid = Some (sched p) -> lk n n' -> Q tt n') -> wp (schedule_peer_task pid) n Q.
Proof. intros pid n p Q Hf H. eapply (wp_wr_lk _ sched); [exact Hf | exact core_sched | exact H]. Qed.
Lemma wp_set_next : forall pid d n p (Q : unit -> node -> Prop), find_id (n_peers n) pid = Some p ->
  (forall n', find_id (n_peers n') pid = Some (set_p_next_hs (Some (n_now n + d)) p) -> lk n n' -> Q tt n') -> wp (set_next_handshake pid d) n Q.
Proof. intros pid d n p Q Hf H. apply wp_bnd. apply wp_gets. eapply wp_wr_lk; [exact Hf | reflexivity | exact H]. Qed.
Lemma wp_schedule_handshake : forall pid d n p (Q : unit -> node -> Prop), find_id (n_peers n) pid = Some p ->
  (forall n', find_id (n_peers n') pid = Some (sched (set_p_next_hs (Some (n_now n + d)) p)) -> lk n n' -> Q tt n') -> wp (schedule_handshake pid d) n Q.
Proof.
  intros pid d n p Q Hf H. apply wp_bnd. eapply wp_set_next; [exact Hf|]. intros n1 Hf1 L1. eapply wp_schedule; [exact Hf1|].
  intros n2 Hf2 L2. apply H; [exact Hf2 | eapply lk_trans; eassumption].
Qed.
(** the next handshake of a peer is in the future *)
Definition later_hs (n : node) (p p' : peer) : Prop :=
  p_next_hs p' = p_next_hs p \/ exists t, n_now n < t /\ p_next_hs p' = Some t.
Lemma wp_schedule_default : forall pid n p (Q : unit -> node -> Prop), find_id (n_peers n) pid = Some p ->
  (forall n' p', find_id (n_peers n') pid = Some p' -> lk n n' -> later_hs n p p' -> Q tt n') -> wp (schedule_handshake_default pid) n Q.
Proof.
  intros pid n p Q Hf H. apply wp_bnd. apply wp_rand. intros d n1 E L B. eapply wp_schedule_handshake; [rewrite E; exact Hf|].
  intros n2 Hf2 L2. eapply H; [exact Hf2 | eapply lk_trans; eassumption|]. right. exists (n_now n1 + d).
  rewrite (fm_now _ _ (proj1 L)). split; [lia|]. match goal with |- p_next_hs (sched ?q) = _ => destruct (sched_is q) as [t ->] end. reflexivity.
Qed.
Lemma wp_seen : forall pid n p (Q : unit -> node -> Prop), find_id (n_peers n) pid = Some p ->
  (forall n' p', find_id (n_peers n') pid = Some p' -> lk n n' -> p_next_hs p' = p_next_hs p -> Q tt n') -> wp (peer_seen pid) n Q.
Proof.
  intros pid n p Q Hf H. apply wp_bnd. apply wp_gets. eapply wp_wr_lk; [exact Hf | reflexivity|].
  intros n' Hf' L. eapply H; [exact Hf' | exact L | reflexivity].
Qed.
Lemma wp_clear : forall pid n p (Q : unit -> node -> Prop), find_id (n_peers n) pid = Some p ->
  (forall n' p', find_id (n_peers n') pid = Some p' -> lk n n' -> p_next_hs p' = p_next_hs p -> Q tt n') -> wp (clear_keepalive pid) n Q.
Proof.
  intros pid n p Q Hf H. apply wp_bnd. apply wp_gets. eapply wp_wr_lk; [exact Hf | reflexivity|].
  intros n' Hf' L. eapply H; [exact Hf' | exact L | reflexivity].
Qed.

Lemma wp_send : forall sk dst pid p o n (Q : unit -> node -> Prop), alive_sk n sk -> find_id (n_peers n) pid = Some p ->
  (forall n' p', lk n n' -> find_id (n_peers n') pid = Some p' -> later_hs n p p' -> Q tt n') -> wp (send_packet (Some sk) (Some dst) (Some pid) o) n Q.
Proof.
  intros sk dst pid p o n Q Ha Hf H. unfold send_packet. apply wp_bnd. apply wp_use_sock; [exact Ha|].
  apply wp_bnd. apply wp_emit. intros n1 E1 L1. apply wp_bnd. apply wp_flip. intros retry n2 E2 L2.
  assert (Hf2 : find_id (n_peers n2) pid = Some p) by (rewrite E2, E1; exact Hf).
  assert (L : lk n n2) by (eapply lk_trans; eassumption).
  apply wp_when; intros _.
  - apply wp_bnd. eapply wp_rd; [exact Hf2|]. destruct (p_next_hs p) as [t|] eqn:Et.
    + apply wp_ret. eapply H; [exact L | exact Hf2 | left; reflexivity].
    + eapply wp_schedule_default; [exact Hf2|]. intros n3 p3 Hf3 L3 B. eapply H; [eapply lk_trans; eassumption | exact Hf3|].
      unfold later_hs in *. rewrite <- (fm_now _ _ (proj1 L)). exact B.
  - eapply H; [exact L | exact Hf2 | left; reflexivity].
Qed.
Lemma wp_send_anon : forall sk dst o n (Q : unit -> node -> Prop), alive_sk n sk ->
  (forall n', lk n n' -> Q tt n') -> wp (send_packet (Some sk) (Some dst) None o) n Q.
Proof.
  intros sk dst o n Q Ha H. unfold send_packet. apply wp_bnd. apply wp_use_sock; [exact Ha|].
  apply wp_bnd. apply wp_emit. intros n1 E1 L1. apply wp_bnd. apply wp_flip. intros retry n2 E2 L2.
  apply wp_ret. apply H. eapply lk_trans; eassumption.
Qed.
Lemma maintenance_lk : forall n (Q : unit -> node -> Prop), (forall n', n_peers n' = n_peers n -> lk n n' -> Q tt n') -> wp maintenance n Q.
Proof.
  intros n Q H. apply wp_modn. destruct (timed_out (n_now n) (k_preferred_till (n_cur n))); apply H; try reflexivity; apply same_peers_lk; reflexivity.
Qed.

(** ** Sending payload *)
Lemma wp_check_refresh : forall pid n p (Q : unit -> node -> Prop), find_id (n_peers n) pid = Some p -> p_sess p <> None ->
  (forall n' p', find_id (n_peers n') pid = Some p' -> p_sess p' <> None -> lk n n' -> Q tt n') -> wp (check_session_refresh pid) n Q.
Proof.
  intros pid n p Q Hf Hs H. apply wp_bnd. eapply wp_rd; [exact Hf|]. apply wp_bnd. apply wp_gets.
  destruct (p_sess p) as [s|] eqn:E; [|congruence]. apply wp_when; intros _.
  - apply wp_bnd. eapply wp_wr; [exact Hf | intros q; reflexivity|]. intros n1 Hf1 [F1 A1].
    assert (L1 : lk n n1).
    { split; [exact F1|]. intros q _. destruct (N.eq_dec q pid) as [->|X]; [|exact (A1 q X)]. unfold fcore. rewrite Hf, Hf1. cbn [option_map].
      f_equal. unfold core. cbn. rewrite E. reflexivity. }
    eapply wp_schedule_handshake; [exact Hf1|]. intros n2 Hf2 L2. eapply H; [exact Hf2 | | eapply lk_trans; eassumption].
    match goal with |- p_sess (sched ?q) <> None => destruct (sched_is q) as [t ->] end. discriminate.
  - eapply H; [exact Hf | congruence | apply ch_refl].
Qed.

Lemma wp_session_send : forall pid (old : bool) n p (Q : unit -> node -> Prop), find_id (n_peers n) pid = Some p ->
  (if old then p_old p else p_sess p) <> None -> p_sock p <> None -> p_addr p <> None -> ex n ->
  (forall n' p', lk n n' -> find_id (n_peers n') pid = Some p' -> later_hs n p p' -> Q tt n') -> wp (session_send P pid old) n Q.
Proof.
  intros pid old n p Q Hf Hs Hk Ha X H. apply wp_bnd. eapply wp_rd; [exact Hf|].
  destruct (if old then p_old p else p_sess p) as [s|] eqn:Es; [|congruence].
  apply wp_bnd. apply wp_flip. intros failed n1 E1 L1. assert (Hf1 : find_id (n_peers n1) pid = Some p) by (rewrite E1; exact Hf).
  destruct failed.
  - apply wp_emit. intros n2 E2 L2. eapply H; [eapply lk_trans; eassumption | rewrite E2; exact Hf1 | left; reflexivity].
  - cbv zeta. apply wp_bnd. eapply wp_wr; [exact Hf1 | intros q; destruct old; reflexivity|]. intros n2 Hf2 [F2 A2].
    assert (L2 : lk n1 n2).
    { split; [exact F2|]. intros q _. destruct (N.eq_dec q pid) as [->|Y]; [|exact (A2 q Y)]. unfold fcore. rewrite Hf1, Hf2. cbn [option_map].
      f_equal. destruct old; [reflexivity|]. unfold core. cbn. rewrite Es. reflexivity. }
    assert (L : lk n n2) by (eapply lk_trans; eassumption).
    destruct (p_sock p) as [sk|] eqn:Esk; [|congruence]. destruct (p_addr p) as [a|] eqn:Ea; [|congruence].
    apply wp_bnd. eapply wp_send; [eapply alive_lk; [exact L|]; eapply alive_own; eassumption | exact Hf2|].
    intros n3 p3 L3 Hf3 B3.
    assert (B : later_hs n p p3).
    { unfold later_hs in *. rewrite (fm_now _ _ (proj1 L)) in B3. destruct old; exact B3. }
    apply wp_when; intros _.
    + eapply wp_clear; [exact Hf3|]. intros n4 p4 Hf4 L4 E4. eapply H; [eapply lk_trans; [exact L | eapply lk_trans; eassumption] | exact Hf4|].
      unfold later_hs in *. rewrite E4. exact B.
    + eapply H; [eapply lk_trans; eassumption | exact Hf3 | exact B].
Qed.
End Safe.
