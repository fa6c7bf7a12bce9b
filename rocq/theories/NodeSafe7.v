(** Peers that are not dynamic have the options of some definition; an execution without
    dynamic peers and without definitions that lack remotes does not crash *)
From Verif Require Import Base BufferModel NonceModel MethodModel HandshakeModel NodeModel NodeSteps NodeWf NodeInv NodeFun NodeFun2 NodeFun3 NodeFun4
  NodeSpec NodeProofs NodeReloadSpec NodeReload NodeReload2 NodeSafe NodeSafe6 NodeCrashSpec.
From Coq Require Import Lia.

Section Defs.
Variables (P : params) (Q : pconf -> Prop).
Hypothesis Qdir : forall d c, Q c -> Q (with_dir d c).
Definition fits (p : peer) : Prop := is_dynamic p = true \/ Q (conf_of p).
Definition all_fit (n : node) : Prop := forall p, In p (n_peers n) -> fits p.

Lemma kstep_fits : forall b c o o', kstep b c o o' -> Q c -> (forall p, o = Some p -> fits p) -> forall p', o' = Some p' -> fits p'.
Proof.
  intros b c o o' H Hc Ho p' E. unfold fits in *. destruct H as [i s Hi | p Hd | p Hs He | p i s Hd Hi]; injection E as <-.
  - right. rewrite conf_of_new. exact Hc.
  - destruct (Ho p eq_refl) as [Y | Y]; [|right; exact Y]. exfalso. apply is_dyn_true in Y. destruct Hd; congruence.
  - destruct (Ho p eq_refl) as [Y | Y]; [|right; exact Y]. exfalso. apply is_dyn_true in Y. congruence.
  - right. rewrite conf_of_new. exact Hc.
Qed.
Lemma ksteps_fits : forall b l o o', ksteps b l o o' -> (forall c, In c l -> Q c) -> (forall p, o = Some p -> fits p) -> forall p', o' = Some p' -> fits p'.
Proof.
  intros b l o o' H. induction H as [|c l o o1 o2 H _ IH]; intros Hl Ho p' E; [exact (Ho p' E)|].
  apply IH; [intros c' Hc'; apply Hl; right; exact Hc' | | exact E]. eapply kstep_fits; [exact H | apply Hl; left; reflexivity | exact Ho].
Qed.
Lemma cstep_fits : forall p p', cstep P p (Some p') -> fits p -> fits p'.
Proof.
  intros p p' H Hp. destruct (cstep_key P _ _ H p' eq_refl) as [_ E]. unfold fits. rewrite E. destruct Hp as [Y | Y]; [|right; exact Y].
  apply is_dyn_true in Y. inversion H as [Y1 | Y1 | p1 [Y1|Y1] | p1 Y1]; subst; try congruence. left. apply is_dyn_true. exact Y.
Qed.
Lemma load_fits : forall d defs x n n', load_peer_dirs P d defs n = Ok (x, n') -> inv0 P n -> (forall c, In c defs -> Q c) -> all_fit n -> all_fit n'.
Proof.
  intros d defs x n n' H I Hq Hn p' Hp'. destruct (load_key P _ _ _ _ _ H I) as (I' & K). specialize (K (p_key p')).
  destruct K as (o & Ks & C). rewrite (in_key P n' p' I' Hp') in C. destruct o as [p|]; [|discriminate]. apply (cstep_fits p p' C).
  eapply ksteps_fits; [exact Ks | | | reflexivity].
  - intros c Hc. apply of_key_in in Hc. apply Hq. apply Hc.
  - intros q Eq. destruct (F n (p_key p')) as [q0|] eqn:Ef; [|discriminate]. injection Eq as <-. apply F_in in Ef. destruct (Hn q0 (proj1 Ef)) as [Y|Y].
    + left. unfold pre_reload. rewrite Y. exact Y.
    + right. destruct (pre_reload_const q0) as (c & -> & _). exact Y.
Qed.
Lemma start_fits : forall static dirs x n n', start P static dirs n = Ok (x, n') -> inv0 P n -> n_peers n = [] ->
  (forall c, In c (static ++ dirs) -> Q c) -> all_fit n'.
Proof.
  intros static dirs x n n' H I Hnil Hq. unfold start in H. bind H as u m H1.
  destruct (static_adds_key P _ _ _ _ H1 I) as (I1 & _ & _ & _ & M1); [rewrite Hnil; intros p []|]. clear H1.
  bind H as u2 m2 H2. destruct (configure_peers_key P _ _ _ _ H2 I1) as (I2 & _ & K2). clear H2.
  eapply load_fits; [exact H | exact I2 | |].
  - intros c Hc. apply in_map_iff in Hc. destruct Hc as (c0 & <- & Hc). change (Q (with_dir true c0)). apply Qdir, Hq, in_or_app. right. exact Hc.
  - intros p' Hp'. specialize (K2 (p_key p')). rewrite (in_key P m2 p' I2 Hp') in K2. destruct (F m (p_key p')) as [p|] eqn:Ef; [|discriminate].
    apply (cstep_fits p p' K2). right. apply F_in in Ef. destruct (proj1 (M1 (conf_of p))) as [(q & Hx & _) | X]; [exists p; split; [apply Ef | reflexivity] | rewrite Hnil in Hx; destruct Hx|].
    apply in_map_iff in X. destruct X as (c0 & <- & Hc). apply Qdir, Hq, in_or_app. left. exact Hc.
Qed.
Lemma handle_fits : forall ev x n n', handle P ev n = Ok (x, n') -> inv P n -> (forall defs, ev = EvReload defs -> forall c, In c defs -> Q c) -> all_fit n -> all_fit n'.
Proof.
  intros ev x n n' H I Hq Hn. pose proof (handle_to P ev _ _ _ H I) as [[St _] I'].
  assert (Hk : f_rl (fl_of ev) = false -> all_fit n').
  { intros Hr p' Hp'. destruct (is_dynamic p') eqn:Ed; [left; exact Ed|]. right. destruct (steps_kept _ _ _ _ _ St Hr (i_0 _ _ I)) as [_ K].
    destruct (K p' Hp' Ed) as (p & Hp & _ & -> & E2). destruct (Hn p Hp) as [Y|Y]; [|exact Y]. rewrite <- (dyn_conf_eq _ _ E2) in Y. congruence. }
  destruct ev; try (apply Hk; reflexivity). cbn [handle] in H. eapply load_fits; [exact H | apply I | | exact Hn].
  intros c Hc. apply in_map_iff in Hc. destruct Hc as (c0 & <- & Hc). change (Q (with_dir true c0)). apply Qdir. exact (Hq _ eq_refl c0 Hc).
Qed.
Lemma execute_fits : forall now orc static dirs evs n, execute P now orc static dirs evs = Ok n ->
  (forall c, In c (static ++ dirs) -> Q c) -> (forall dt defs c, In (dt, EvReload defs) evs -> In c defs -> Q c) -> all_fit n.
Proof.
  intros now orc static dirs evs n H Hq Hr. unfold execute in H.
  destruct ((start P static dirs;; run P evs) (empty_node (Z.of_N now) orc)) as [[x n1]| | |] eqn:E; try discriminate. injection H as <-.
  bind E as u m H1. pose proof (start_to P EvMaintenance _ _ _ _ _ H1 (empty_inv P _ _) eq_refl) as [_ I].
  pose proof (start_fits _ _ _ _ _ H1 (empty_inv P _ _) eq_refl Hq) as HJ. clear H1.
  unfold run in E. revert x m n1 I HJ E. induction evs as [|e evs IH]; intros x m n1 I HJ E; cbn [each] in E.
  - apply ret_ok in E. destruct E as [_ ->]. exact HJ.
  - bind E as u2 m2 H2. unfold step in H2. bind H2 as u3 m3 H3. apply modn_ok in H3.
    assert (I3 : inv P m3) by (rewrite H3; apply inv_tick; exact I).
    assert (J3 : all_fit m3) by (rewrite H3; exact HJ).
    apply (IH (fun dt defs c Hin => Hr dt defs c (or_intror Hin)) x m2 n1); [apply (handle_to P _ _ _ _ H2 I3) | eapply handle_fits; [exact H2 | exact I3 | | exact J3] | exact E].
    intros defs Ed c Hc. apply (Hr (fst e) defs c); [left; destruct e; cbn in *; congruence | exact Hc].
Qed.
End Defs.

Lemma no_crash_bound : forall P now orc static dirs evs, c_verify P = None ->
  (forall c, In c (static ++ dirs) -> pc_remotes c <> []) -> (forall dt defs c, In (dt, EvReload defs) evs -> In c defs -> pc_remotes c <> []) ->
  (forall dt o i la ra d, ~ In (dt, EvRecv (SDyn o i) la ra d) evs) -> ~ crashes (execute P now orc static dirs evs).
Proof.
  intros P now orc static dirs evs Hv Hq Hr Hs. apply no_crash.
  assert (Hmain : forall l, (forall x, In x l -> In x evs) -> no_risky P now orc static dirs l).
    { intros l. pattern l. apply rev_ind; clear l.
    - intros _ evs1 dt ev evs2 n E. destruct evs1; discriminate.
    - intros x l IHl Hin. assert (Hl : no_risky P now orc static dirs l) by (apply IHl; intros y Hy; apply Hin, in_or_app; left; exact Hy).
      intros evs1 dt ev evs2 n E He Hrisk. destruct evs2 as [|y evs2 _] using rev_ind.
      2:{ rewrite app_comm_cons, app_assoc in E. apply app_inj_tail in E. destruct E as [E _]. exact (Hl evs1 dt ev evs2 n E He Hrisk). }
      apply app_inj_tail in E. destruct E as [-> ->].
      assert (Hx : In (dt, ev) evs) by (apply Hin, in_or_app; right; left; reflexivity).
      destruct ev as [[k|o i] la ra d|owner src dst|pid| |k addrs|k ok|defs|]; try exact Hrisk; [exact (Hs _ _ _ _ _ _ Hx)|].
      destruct Hrisk as (p & Hp & _ & Hrem & _).
      pose proof (execute_fits P (fun c => pc_remotes c <> []) ltac:(intros d c Hc; exact Hc) _ _ _ _ _ _ He Hq
         (fun dt' defs c Hi Hc => Hr dt' defs c (Hin _ (in_or_app _ _ _ (or_introl Hi))) Hc)) as Hfit.
      destruct (Hfit p Hp) as [Hd | Hd].
      + pose proof (execute_ex P now orc static dirs evs1 Hl) as X. rewrite He in X.
        pose proof (in_find n p (x_ids _ _ X) Hp) as Hf. apply is_dyn_true in Hd. destruct (e_dyn _ _ (x_peers _ _ X _ _ Hf) Hd) as [_ Y].
        unfold allow_verify in Y. rewrite Hv in Y. discriminate.
      + apply Hd. unfold conf_of, configured_remotes. cbn. rewrite Hrem. reflexivity. }
  apply Hmain. intros x Hx. exact Hx.
Qed.
