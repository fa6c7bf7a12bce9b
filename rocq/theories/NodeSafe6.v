(** Weakest preconditions: reload, start and executions *)
From Verif Require Import Base BufferModel NonceModel MethodModel HandshakeModel HandshakeSpec NodeModel NodeSteps NodeWf NodeInv NodeFun NodeFun2 NodeFun3 NodeFun4
  NodeSpec NodeProofs NodeSafe NodeSafe2 NodeSafe3 NodeSafe4 NodeSafe5 NodeCrashSpec.
From Coq Require Import Lia ZifyBool ZifyNat ZifyN Sorted.
Local Open Scope Z_scope.

Section Safe.
Variable P : params.
Notation ex := (ex P).
Notation exp := (exp P).

Definition has (n : node) (q : N) : Prop := exists p, find_id (n_peers n) q = Some p.
Lemma frame_has_iff : forall n n' q, frame n n' -> has n q <-> has n' q.
Proof. intros n n' q F. unfold has. rewrite <- !has_iff. rewrite (fm_ids _ _ F). reflexivity. Qed.
Lemma fcore_has : forall n n' q, fcore n' q = fcore n q -> has n q -> has n' q.
Proof.
  intros n n' q E (p & Hp). unfold fcore in E. rewrite Hp in E. cbn in E. destruct (find_id (n_peers n') q) as [p'|] eqn:Y; [exists p'; exact Y | discriminate].
Qed.

Lemma wp_each_ids : forall (f : N -> M unit) l n (Q : unit -> node -> Prop), NoDup l -> ex n -> (forall q, In q l -> has n q) ->
  (forall pid m p, find_id (n_peers m) pid = Some p -> ex m -> wp (f pid) m (fun _ m' => ex m' /\ forall q, q <> pid -> has m q -> has m' q)) ->
  (forall n', ex n' -> Q tt n') -> wp (each f l) n Q.
Proof.
  intros f l. induction l as [|x l IH]; intros n Q Hd X Hl Hf H; cbn [each]; [apply wp_ret; exact (H n X)|].
  apply NoDup_cons_iff in Hd. destruct Hd as [Hx Hd]. destruct (Hl x (or_introl eq_refl)) as (p & Hp).
  apply wp_bnd. eapply wp_conseq; [apply (Hf x n p Hp X)|]. intros u m _ [Xm Hm]. apply IH; [exact Hd | exact Xm | | exact Hf | exact H].
  intros q Hq. apply Hm; [intros ->; contradiction | apply Hl; right; exact Hq].
Qed.
Lemma sorted_nodup : forall l, StronglySorted N.lt l -> NoDup l.
Proof.
  induction l as [|x l IH]; intros H; constructor.
  - apply StronglySorted_inv in H. destruct H as [_ H]. rewrite Forall_forall in H. intros Hin. specialize (H x Hin). lia.
  - apply IH. apply StronglySorted_inv in H. apply H.
Qed.
Lemma ids_here : forall n q, In q (map p_id (n_peers n)) -> has n q.
Proof. intros n q H. apply has_iff. exact H. Qed.

Lemma wp_set_conf : forall pid c n p (Q : unit -> node -> Prop), find_id (n_peers n) pid = Some p -> ex n -> c <> CDynamic ->
  (forall n', find_id (n_peers n') pid = Some (set_p_conf c p) -> frame n n' -> ex n' -> Q tt n') -> wp (wr pid (set_p_conf c)) n Q.
Proof.
  intros pid c n p Q Hf X Hc H. eapply wp_wr; [exact Hf | intros q; reflexivity|]. intros n1 Hf1 C1. apply H; [exact Hf1 | apply C1|].
  eapply ch1_ex; [exact C1 | exact X | exact Hf1|]. destruct (x_peers _ _ X _ _ Hf) as [A B C D]. constructor; try assumption. intros E. contradiction.
Qed.

Lemma wp_configure_peer : forall dirs pid n p, find_id (n_peers n) pid = Some p -> ex n ->
  wp (configure_peer P dirs pid) n (fun _ n' => ex n' /\ forall q, q <> pid -> has n q -> has n' q).
Proof.
  intros dirs pid n p Hf X. apply wp_bnd. eapply wp_rd; [exact Hf|].
  assert (Hfr : forall n', frame n n' -> ex n' -> ex n' /\ forall q, q <> pid -> has n q -> has n' q).
  { intros n' F X'. split; [exact X'|]. intros q _. apply (frame_has_iff n n' q F). }
  assert (Hgo : wp ((match p_conf p with
       | CDisabled => ret tt
       | _ => when (bytes_eqb (c_own P) (p_key p)) (wr pid (set_p_conf CDisabled))
       end) ;;
      p <- rd pid ;;
      match p_conf p with
      | CDisabled => peer_reset P pid
      | _ =>
          when (is_floating p) (modn (set_n_floating true)) ;;
          wr pid (set_p_conf CStatic) ;;
          when (negb (is_established p) && (p_dir p || negb dirs))%bool (peer_reset P pid)
      end) n (fun _ n' => ex n' /\ forall q, q <> pid -> has n q -> has n' q)).
  { apply wp_bnd.
    assert (Hrest : forall n1 p1, find_id (n_peers n1) pid = Some p1 -> frame n n1 -> ex n1 ->
      wp (p <- rd pid ;;
      match p_conf p with
      | CDisabled => peer_reset P pid
      | _ =>
          when (is_floating p) (modn (set_n_floating true)) ;;
          wr pid (set_p_conf CStatic) ;;
          when (negb (is_established p) && (p_dir p || negb dirs))%bool (peer_reset P pid)
      end) n1 (fun _ n' => ex n' /\ forall q, q <> pid -> has n q -> has n' q)).
    { intros n1 p1 Hf1 F1 X1. apply wp_bnd. eapply wp_rd; [exact Hf1|].
      assert (Hen : wp (when (is_floating p1) (modn (set_n_floating true)) ;;
          wr pid (set_p_conf CStatic) ;;
          when (negb (is_established p1) && (p_dir p1 || negb dirs))%bool (peer_reset P pid)) n1 (fun _ n' => ex n' /\ forall q, q <> pid -> has n q -> has n' q)).
      { apply wp_bnd.
        assert (H2 : forall n2, n_peers n2 = n_peers n1 -> lk n1 n2 -> wp (wr pid (set_p_conf CStatic) ;;
          when (negb (is_established p1) && (p_dir p1 || negb dirs))%bool (peer_reset P pid)) n2 (fun _ n' => ex n' /\ forall q, q <> pid -> has n q -> has n' q)).
        { intros n2 E2 L2. apply wp_bnd. eapply wp_set_conf; [rewrite E2; exact Hf1 | eapply lk_ex; eassumption | discriminate|]. intros n3 Hf3 F3 X3.
          assert (F03 : frame n n3) by (eapply frame_trans; [exact F1|]; eapply frame_trans; [apply L2 | exact F3]).
          apply wp_when; intros _; [|apply Hfr; assumption]. eapply wp_peer_reset; [exact Hf3 | exact X3|]. intros n4 p4 _ _ C4 X4. apply Hfr; [eapply frame_trans; [exact F03 | apply C4] | exact X4]. }
        apply wp_when; intros _; [apply wp_modn|]; apply H2; try reflexivity; [apply same_peers_lk; reflexivity | apply ch_refl]. }
      destruct (p_conf p1); try exact Hen. eapply wp_peer_reset; [exact Hf1 | exact X1|]. intros n2 p2 _ _ C2 X2. apply Hfr; [eapply frame_trans; [exact F1 | apply C2] | exact X2]. }
    assert (Hw : wp (when (bytes_eqb (c_own P) (p_key p)) (wr pid (set_p_conf CDisabled))) n (fun _ n1 => wp (p <- rd pid ;;
      match p_conf p with
      | CDisabled => peer_reset P pid
      | _ =>
          when (is_floating p) (modn (set_n_floating true)) ;;
          wr pid (set_p_conf CStatic) ;;
          when (negb (is_established p) && (p_dir p || negb dirs))%bool (peer_reset P pid)
      end) n1 (fun _ n' => ex n' /\ forall q, q <> pid -> has n q -> has n' q))).
    { apply wp_when; intros _; [|eapply Hrest; [exact Hf | apply frame_refl | exact X]]. eapply wp_set_conf; [exact Hf | exact X | discriminate|].
      intros n1 Hf1 F1 X1. eapply Hrest; eassumption. }
    destruct (p_conf p); try exact Hw. apply wp_ret. eapply Hrest; [exact Hf | apply frame_refl | exact X]. }
  destruct (p_conf p); try exact Hgo.
  - eapply wp_peer_delete; [exact Hf | exact X|]. intros n1 X1 Ho _ _. split; [exact X1|]. intros q Hq. apply fcore_has. exact (Ho q Hq).
  - apply wp_ret. split; [exact X | intros q _ Hq; exact Hq].
Qed.
Lemma wp_configure_peers : forall dirs n (Q : unit -> node -> Prop), ex n -> (forall n', ex n' -> Q tt n') -> wp (configure_peers P dirs) n Q.
Proof.
  intros dirs n Q X H. apply wp_bnd. apply wp_modn. apply wp_bnd. apply wp_gets. cbn [n_peers set_n_floating].
  assert (X1 : ex (set_n_floating false n)) by (apply (lk_ex P n); [apply same_peers_lk; reflexivity | exact X]).
  apply wp_each_ids; [apply NoDup_rev; apply sorted_nodup; exact (proj1 (x_ids _ _ X)) | exact X1 | | | exact H].
  - intros q Hq. apply in_rev in Hq. exact (ids_here n q Hq).
  - intros pid m p Hf Xm. eapply wp_configure_peer; eassumption.
Qed.

Lemma wp_peer_add : forall c n (Q : added -> node -> Prop), ex n -> (forall a n', ex n' -> Q a n') -> wp (peer_add P c CNew) n Q.
Proof.
  intros c n Q X H. apply wp_bnd. apply wp_gets.
  assert (Hins : forall m, ex m -> wp (id <- insert_peer c CNew ;; ret (AddNew id)) m Q).
  { intros m Xm. apply wp_bnd. apply wp_insert with (P := P); [exact Xm | discriminate|]. intros n1 X1 _. apply wp_ret. exact (H _ n1 X1). }
  destruct (find_peer_key (n_peers n) (pc_key c)) as [other|] eqn:E; [|apply Hins; exact X].
  assert (Hf : find_id (n_peers n) (p_id other) = Some other) by (apply in_find; [exact (x_ids _ _ X) | unfold find_peer_key in E; apply find_some in E; apply E]).
  assert (Hdel : wp (peer_delete P (p_id other) ;; id <- insert_peer c CNew ;; ret (AddNew id)) n Q).
  { apply wp_bnd. eapply wp_peer_delete; [exact Hf | exact X|]. intros n1 X1 _ _ _. apply Hins. exact X1. }
  assert (Hdis : wp (wr (p_id other) (set_p_conf CDisabled) ;; ret AddFailed) n Q).
  { apply wp_bnd. eapply wp_set_conf; [exact Hf | exact X | discriminate|]. intros n1 _ _ X1. apply wp_ret. exact (H _ n1 X1). }
  destruct (p_conf other); try exact Hdel; try exact Hdis.
  destruct (configs_equal other c); [|exact Hdel]. apply wp_bnd. eapply wp_set_conf; [exact Hf | exact X | discriminate|]. intros n1 _ _ X1. apply wp_ret. exact (H _ n1 X1).
Qed.

Lemma pre_reload_exp : forall p, exp p -> exp (pre_reload p).
Proof.
  intros p Xp. unfold pre_reload. destruct (is_dynamic p); [exact Xp|].
  destruct (negb (p_dir p)); [|destruct (p_conf p); try exact Xp]; destruct Xp as [A B C D]; constructor; try assumption; discriminate.
Qed.
Lemma pre_reload_id : forall p, p_id (pre_reload p) = p_id p.
Proof. intros p. unfold pre_reload. destruct (is_dynamic p); [reflexivity|]. destruct (negb (p_dir p)); [reflexivity|]. destruct (p_conf p); reflexivity. Qed.
Lemma pre_reload_ex : forall n, ex n -> ex (set_n_peers (map pre_reload (n_peers n)) n).
Proof.
  intros n [I X E V]. assert (Ei : ids (map pre_reload (n_peers n)) = ids (n_peers n)) by (unfold ids; rewrite map_map; apply map_ext; exact pre_reload_id).
  constructor; cbn [n_peers n_eth n_verifying set_n_peers].
  - unfold ids_ok in *. cbn [n_peers n_next_id set_n_peers]. rewrite Ei. exact I.
  - intros q p Hq. rewrite (find_id_map _ _ _ pre_reload_id) in Hq. destruct (find_id (n_peers n) q) as [x|] eqn:Y; [|discriminate]. injection Hq as <-.
    apply pre_reload_exp. exact (X q x Y).
  - rewrite Ei. exact E.
  - exact V.
Qed.
Lemma wp_load : forall dirs defs n (Q : unit -> node -> Prop), ex n -> (forall n', ex n' -> Q tt n') -> wp (load_peer_dirs P dirs defs) n Q.
Proof.
  intros dirs defs n Q X H. apply wp_bnd. apply wp_modn. apply wp_bnd. apply wp_each with (J := ex); [apply pre_reload_ex; exact X | |].
  - intros c m _ Xm. apply wp_bnd. apply wp_peer_add; [exact Xm|]. intros a m' X'. apply wp_ret. exact X'.
  - intros m Xm. apply wp_configure_peers; [exact Xm | exact H].
Qed.
Lemma wp_reset_all : forall n (Q : unit -> node -> Prop), ex n -> (forall n', ex n' -> Q tt n') -> wp (reset_all P) n Q.
Proof.
  intros n Q X H. apply wp_bnd. apply wp_gets. apply wp_each_ids; [apply sorted_nodup; exact (proj1 (x_ids _ _ X)) | exact X | apply ids_here | | exact H].
  intros pid m p Hf Xm. apply wp_bnd. eapply wp_rd; [exact Hf|]. destruct (is_dynamic p).
  - eapply wp_peer_delete; [exact Hf | exact Xm|]. intros n1 X1 Ho _ _. split; [exact X1|]. intros q Hq. apply fcore_has. exact (Ho q Hq).
  - eapply wp_peer_reset; [exact Hf | exact Xm|]. intros n1 p1 _ _ C1 X1. split; [exact X1|]. intros q _. apply (frame_has_iff m n1 q). apply C1.
Qed.
Lemma wp_start : forall now orc st di (Q : unit -> node -> Prop), (forall n', ex n' -> Q tt n') -> wp (start P st di) (empty_node now orc) Q.
Proof.
  intros now orc st di Q H. apply wp_bnd. apply wp_each with (J := ex).
  - constructor; cbn.
    + split; constructor.
    + discriminate.
    + intros e d [].
    + intros j [].
  - intros c m _ Xm. apply wp_bnd. apply wp_peer_add; [exact Xm|]. intros a m' X'. destruct a; try (apply wp_ret; exact X'). apply wp_fatal.
  - intros m Xm. apply wp_bnd. apply wp_configure_peers; [exact Xm|]. intros n1 X1. apply wp_load; [exact X1 | exact H].
Qed.

(** ** Events *)
Lemma nth_remove_in : forall A (l : list A) k y, In y (remove_nth k l) -> In y l.
Proof.
  intros A l k y H. unfold remove_nth in H. apply in_app_or in H. rewrite <- (firstn_skipn k l). apply in_or_app. destruct H as [H|H]; [left; exact H | right].
  destruct (skipn k l) as [|z r] eqn:E.
  - assert (Y : skipn (S k) l = []) by (apply skipn_all2; pose proof (f_equal (@length A) E) as L; rewrite skipn_length in L; cbn in L; lia). rewrite Y in H. destruct H.
  - assert (Y : skipn (S k) l = r). { clear H. revert k E. induction l as [|x l IH]; intros [|k] E; cbn in *; try congruence. apply IH. exact E. }
    rewrite Y in H. right. exact H.
Qed.

Lemma inv_ready : forall n, inv P n -> ex n -> ready n.
Proof.
  intros n I X q p Hf H. apply (e_rem _ _ (x_peers _ _ X _ _ Hf)). destruct H as [H | H].
  - apply (i_alive _ _ I q p Hf). exact H.
  - intros Hs. destruct (pi_clean _ _ (i_pinv _ _ (i_0 _ _ I) p (proj1 (find_id_in _ _ _ Hf))) Hs) as (Y & _). contradiction.
Qed.

Lemma wp_handle : forall dt ev n (Q : unit -> node -> Prop), inv P n -> ex n -> ~ risky n dt ev ->
  (forall n', ex n' -> Q tt n') -> wp (step P (dt, ev)) n Q.
Proof.
  intros dt ev n Q I X Hr H. apply wp_bnd. apply wp_modn. cbn [fst snd]. fold (tick dt n).
  assert (I1 : inv P (tick dt n)) by (apply inv_tick; exact I).
  assert (X1 : ex (tick dt n)) by (destruct X as [A B C D]; constructor; assumption).
  pose proof (inv_ready _ I1 X1) as Hready. change (n_peers n) with (n_peers (tick dt n)) in *.
  assert (Hr1 : ~ risky n dt ev) by exact Hr. clear Hr. unfold risky in Hr1. change (n_peers n) with (n_peers (tick dt n)) in Hr1.
  assert (En : n_now n + Z.of_N dt = n_now (tick dt n)) by reflexivity. rewrite En in Hr1. clear En. set (n1 := tick dt n) in *. clearbody n1.
  destruct ev as [sk la ra d|owner src dst|pid| |k addrs|k ok|defs|]; cbn [handle].
  - apply wp_bnd. apply wp_gets. destruct sk as [k|o i].
    + apply wp_receive; [exact X1 | exact Hready | reflexivity | exact Logic.I | exact H].
    + apply wp_when; intros Ea; [|exact (H n1 X1)]. apply wp_receive; [exact X1 | exact Hready | exact Ea | | exact H].
      intros q Hq Ho Hn. apply Hr1. exists q. repeat split; assumption.
  - apply wp_bnd. apply wp_gets. destruct owner as [o|].
    + destruct (find_id (n_peers n1) o) as [p|] eqn:Hf; [|apply wp_ret; exact (H n1 X1)]. apply wp_when; intros _; [|exact (H n1 X1)].
      apply wp_send_data; [exact X1 | exists p; exact Hf|]. intros n2 X2 _. exact (H n2 X2).
    + apply wp_send_data; [exact X1 | exact Logic.I|]. intros n2 X2 _. exact (H n2 X2).
  - apply wp_bnd. apply wp_gets. apply wp_bnd. apply wp_gets. destruct (find_id (n_peers n1) pid) as [p|] eqn:Hf; [|apply wp_ret; exact (H n1 X1)].
    apply wp_when; intros Ed; [|exact (H n1 X1)].
    assert (Hact : p_state p <> Inactive).
    { intros Hs. destruct (pi_clean _ _ (i_pinv _ _ (i_0 _ _ I1) p (proj1 (find_id_in _ _ _ Hf))) Hs) as (_ & _ & Y & _). rewrite Y in Ed. discriminate. }
    eapply wp_handle_task; [exact Hf | exact X1 | exact (e_rem _ _ (x_peers _ _ X1 _ _ Hf) Hact) | | exact H].
    intros Hn Hs Hdue. apply Hr1. exists p. destruct (find_id_in _ _ _ Hf) as [Hin Hid]. repeat split; assumption.
  - apply wp_modn. apply H. apply (lk_ex P n1); [|exact X1]. split; [|reflexivity]. constructor; try reflexivity; cbn.
    + intros e d0 He _. left. apply filter_In in He. apply He.
    + intros j Hj. left. exact Hj.
  - apply wp_bnd. apply wp_gets. destruct (nth_error (n_resolving n1) k) as [[pid i]|] eqn:En; [|apply wp_ret; exact (H n1 X1)].
    apply wp_bnd. apply wp_modn. apply wp_resolve_return; [apply (lk_ex P n1); [apply same_peers_lk; reflexivity | exact X1] | | exact H].
    intros p Hp. apply nth_error_In in En. destruct (proj2 (i_jobs _ _ (i_0 _ _ I1)) _ En) as [_ Y]. exact (Y p Hp).
  - apply wp_bnd. apply wp_gets. destruct (nth_error (n_verifying n1) k) as [j|] eqn:En; [|apply wp_ret; exact (H n1 X1)].
    apply nth_error_In in En. apply wp_bnd. apply wp_modn. apply wp_verify_return; [| exact (x_ver _ _ X1 j En) | | exact H].
    + apply (lk_ex P n1); [|exact X1]. split; [|reflexivity]. constructor; try reflexivity; cbn.
      * intros e d0 He _. left. exact He.
      * intros j' Hj. left. eapply nth_remove_in. exact Hj.
    + intros p Hp. destruct (proj1 (i_jobs _ _ (i_0 _ _ I1)) _ En) as (_ & _ & Y). exact (Y p Hp).
  - apply wp_load; [exact X1 | exact H].
  - apply wp_reset_all; [exact X1 | exact H].
Qed.

(** ** Executions *)
Lemma execute_ex : forall now orc st di evs, no_risky P now orc st di evs ->
  match execute P now orc st di evs with Ok n => ex n | Fatal => True | _ => False end.
Proof.
  intros now orc st di evs. pattern evs. apply rev_ind; clear evs.
  - intros _. unfold execute, run. cbn [each]. pose proof (wp_start (Z.of_N now) orc st di (fun _ n => ex n) (fun n X => X)) as H. unfold wp in H.
    unfold bnd. destruct (start P st di (empty_node (Z.of_N now) orc)) as [[u n]| | |]; exact H.
  - intros [dt ev] evs IH Hr.
    assert (IHr : no_risky P now orc st di evs).
    { intros evs1 dt1 ev1 evs2 n E He. eapply (Hr evs1 dt1 ev1 (evs2 ++ [(dt, ev)]) n); [rewrite E, <- app_assoc; reflexivity | exact He]. }
    specialize (IH IHr). specialize (Hr evs dt ev []).
    destruct (execute P now orc st di evs) as [n| | |] eqn:E; try contradiction.
    + specialize (Hr n eq_refl eq_refl). pose proof (wp_handle dt ev n (fun _ n' => ex n') (reachable_inv P n ltac:(exists now, orc, st, di, evs; exact E)) IH Hr (fun n' X => X)) as W.
      unfold wp in W. unfold execute, run, bnd in *. destruct (start P st di (empty_node (Z.of_N now) orc)) as [[u n0]| | |]; try discriminate.
      rewrite each_app. unfold bnd. destruct (each (step P) evs n0) as [[u1 n1]| | |]; try discriminate. injection E as ->. cbn [each]. unfold bnd.
      destruct (step P (dt, ev) n) as [[u2 n2]| | |]; exact W.
    + unfold execute, run, bnd in *. destruct (start P st di (empty_node (Z.of_N now) orc)) as [[u n0]| | |]; try discriminate; [|exact Logic.I].
      rewrite each_app. unfold bnd. destruct (each (step P) evs n0) as [[u1 n1]| | |]; try discriminate. exact Logic.I.
Qed.
Lemma no_crash : forall now orc st di evs, no_risky P now orc st di evs -> ~ crashes (execute P now orc st di evs).
Proof.
  intros now orc st di evs Hr H. pose proof (execute_ex now orc st di evs Hr) as W. destruct H as [H|H]; rewrite H in W; exact W.
Qed.
Lemma ids_unique : forall n p q, ids_ok n -> In p (n_peers n) -> In q (n_peers n) -> p_id p = p_id q -> p = q.
Proof. intros n p q Hi Hp Hq E. pose proof (in_find n p Hi Hp) as A. pose proof (in_find n q Hi Hq) as B. rewrite E in A. congruence. Qed.
Lemma task_safe : forall now orc st di evs n dt pid p, no_risky P now orc st di evs -> execute P now orc st di evs = Ok n ->
  In p (n_peers n) -> p_id p = pid -> p_remotes p <> [] \/ p_state p = Established \/ ~ handshake_due (n_now n + Z.of_N dt) p ->
  ~ crashes (step P (dt, EvTask pid) n).
Proof.
  intros now orc st di evs n dt pid p Hr He Hp Hid Hok Hc. pose proof (execute_ex now orc st di evs Hr) as X. rewrite He in X.
  assert (I : inv P n) by (apply reachable_inv; exists now, orc, st, di, evs; exact He).
  assert (Hn : ~ risky n dt (EvTask pid)).
  { intros (q & Hq & Hidq & Hrem & Hst & Hdue). assert (q = p) by (eapply ids_unique; [exact (x_ids _ _ X) | | | congruence]; assumption). subst q.
    destruct Hok as [Y | [Y | Y]]; contradiction. }
  pose proof (wp_handle dt (EvTask pid) n (fun _ n' => ex n') I X Hn (fun n' X' => X')) as W. unfold wp in W. destruct Hc as [Hc|Hc]; rewrite Hc in W; exact W.
Qed.
End Safe.
