(** The invariant of a node between two events *)
From Verif Require Import Base BufferModel NonceModel MethodModel HandshakeModel NodeModel NodeSteps NodeWf.
From Coq Require Import Lia ZifyBool ZifyNat ZifyN Sorted.
Local Open Scope Z_scope.

(** ** More steps allow more *)
Definition fle (a b : flags) : Prop :=
  (f_rl a = true -> f_rl b = true) /\ (f_cl a = true -> f_cl b = true) /\
  (forall q, f_rs a q = true -> f_rs b q = true) /\ (forall q, f_es a q = true -> f_es b q = true) /\
  (forall q, f_up a q = true -> f_up b q = true) /\ (forall q, f_rx a q = true -> f_rx b q = true) /\ (forall q, f_tk a q = true -> f_tk b q = true) /\
  (forall q, f_rp a q = true -> f_rp b q = true) /\ (f_lh a = true -> f_lh b = true).

Lemma pstep_mono3 : forall P a b n p p', (f_rl a = true -> f_rl b = true) -> (f_cl a = true -> f_cl b = true) -> (forall q, f_tk a q = true -> f_tk b q = true) ->
  (f_lh a = true -> f_lh b = true) -> pstep P a n p p' -> pstep P b n p p'.
Proof.
  intros P a b n p p' H1 H2 H3 H4 H. destruct H.
  - apply ps_timer; assumption.
  - apply ps_keep; assumption.
  - apply ps_sched; assumption.
  - apply ps_untask; auto.
  - apply ps_remotes; assumption.
  - apply ps_lhr; tauto.
  - apply ps_eh.
  - apply ps_verifying; assumption.
  - apply ps_sock; assumption.
  - apply ps_laddr.
  - apply ps_addr_none; assumption.
  - apply ps_claim; auto.
  - apply ps_state; assumption.
  - apply ps_setup; assumption.
  - apply ps_conf; auto.
  - apply ps_flags; assumption.
  - eapply ps_recv_old; eassumption.
  - eapply ps_recv; eassumption.
  - apply ps_cleaned; assumption.
  - apply ps_cache; assumption.
  - apply ps_serial; assumption.
Qed.
Lemma pstep_mono : forall P a b n p p', fle a b -> pstep P a n p p' -> pstep P b n p p'.
Proof. intros P a b n p p' (H1 & H2 & H3 & H4 & H5 & H6 & H7 & H8 & H9) H. eapply pstep_mono3; [| | | |exact H]; assumption. Qed.
Lemma nstep_mono : forall P ev a b n n', fle a b -> nstep P ev a n n' -> nstep P ev b n n'.
Proof.
  intros P ev a b n n' Hle H. pose proof Hle as (H1 & H2 & H3 & H4 & H5 & H6 & H7 & H8 & H9). destruct H.
  - apply N_orc.
  - apply N_floating.
  - apply N_resolving; assumption.
  - apply N_verifying; assumption.
  - apply N_next_sock.
  - apply N_eth; assumption.
  - apply N_out. destruct o; try assumption. destruct H as [A B]. split; [exact (H8 _ A) | exact B].
  - apply N_deliver with p; auto.
  - apply N_seen with p; auto.
  - apply N_maint; assumption.
  - apply N_peer with p; [assumption | eapply pstep_mono; eassumption].
  - apply N_verdict; assumption.
  - eapply N_send; eassumption.
  - apply N_reset; auto.
  - apply N_delete with p; auto. tauto.
  - apply N_insert; [assumption | | auto]. destruct H0 as [[A B] | A]; [left; auto | right; exact A].
  - apply N_pre_reload; auto.
  - eapply N_session; eauto.
  - apply N_up with p; auto.
Qed.
Lemma steps_mono : forall P ev a b n n', fle a b -> steps P ev a n n' -> steps P ev b n n'.
Proof.
  intros P ev a b n n' Hle H. induction H as [|n n1 n2 Hs _ IH]; [apply steps_refl|].
  eapply steps_step; [eapply nstep_mono; eassumption | exact IH].
Qed.

(** ** Peers after a step *)
Lemma find_upd_fwd : forall n pid f p q, ids_ok n -> find_id (n_peers n) pid = Some p -> p_id (f p) = p_id p ->
  find_id (upd_id (n_peers n) pid f) q = if N.eqb q pid then Some (f p) else find_id (n_peers n) q.
Proof.
  intros n pid f p q Hi Hf Ef. destruct (upd_split n pid f p Hi Hf) as (l1 & l2 & E1 & E2). rewrite E2.
  assert (Ep : p_id p = pid) by (apply find_id_in in Hf; exact (proj2 Hf)).
  assert (Hn : forall x, In x l1 -> p_id x <> pid).
  { intros x Hx E. destruct Hi as [Hs _]. apply sorted_nodup in Hs. unfold ids in Hs. rewrite E1, map_app in Hs. cbn [map] in Hs.
    apply NoDup_remove in Hs. destruct Hs as [_ Hs]. apply Hs. apply in_or_app. left. rewrite Ep, <- E. apply in_map. exact Hx. }
  rewrite E1. clear E1 E2 Hi Hf. induction l1 as [|y l1 IH]; unfold find_id in *; cbn [app find] in *.
  - rewrite Ef, Ep, (N.eqb_sym pid q). destruct (N.eqb q pid); reflexivity.
  - destruct (N.eqb_spec (p_id y) q) as [E|E].
    + destruct (N.eqb_spec q pid) as [E3|E3]; [|reflexivity]. exfalso. apply (Hn y (or_introl eq_refl)). congruence.
    + apply IH. intros x Hx. apply Hn. right. exact Hx.
Qed.
Lemma find_filter_fwd : forall l pid q, q <> pid ->
  find_id (filter (fun p => negb (N.eqb (p_id p) pid)) l) q = find_id l q.
Proof.
  induction l as [|x l IH]; intros pid q Hq; [reflexivity|]. cbn [filter]. unfold find_id in *.
  destruct (N.eqb_spec (p_id x) pid) as [E|E]; cbn [negb find].
  - rewrite IH by exact Hq. destruct (N.eqb_spec (p_id x) q); [congruence | reflexivity].
  - rewrite IH by exact Hq. reflexivity.
Qed.
Lemma find_filter_gone : forall l pid, find_id (filter (fun p => negb (N.eqb (p_id p) pid)) l) pid = None.
Proof.
  induction l as [|x l IH]; intros pid; [reflexivity|]. cbn [filter]. unfold find_id in *.
  destruct (N.eqb_spec (p_id x) pid) as [E|E]; cbn [negb find]; [apply IH|].
  destruct (N.eqb_spec (p_id x) pid); [congruence | apply IH].
Qed.
Lemma find_app_fwd : forall l x q p, find_id l q = Some p -> find_id (l ++ [x]) q = Some p.
Proof.
  induction l as [|y l IH]; intros x q p H; [discriminate|]. unfold find_id in *. cbn [app find] in *.
  destruct (N.eqb (p_id y) q); [exact H | exact (IH x q p H)].
Qed.

Lemma nstep_fwd : forall P ev fl n n' q p, nstep P ev fl n n' -> ids_ok n -> find_id (n_peers n) q = Some p ->
  (exists p', find_id (n_peers n') q = Some p' /\ pchange P ev fl n p p') \/
  (find_id (n_peers n') q = None /\ p_state p = Inactive /\ f_rs fl q = true /\ (f_rl fl = true \/ is_dynamic p = true)).
Proof.
  intros P ev fl n n' q p H Hi Hq.
  assert (Hup : forall pid p0 f, find_id (n_peers n) pid = Some p0 -> p_id (f p0) = p_id p0 -> pchange P ev fl n p0 (f p0) ->
    exists p', find_id (upd_id (n_peers n) pid f) q = Some p' /\ pchange P ev fl n p p').
  { intros pid p0 f Hf Ef Hc. rewrite (find_upd_fwd n pid f p0 q Hi Hf Ef). destruct (N.eqb_spec q pid) as [->|E].
    - rewrite Hf in Hq. injection Hq as <-. exists (f p0). split; [reflexivity | exact Hc].
    - exists p. split; [exact Hq | apply PC_same]. }
  assert (Hsame : exists p', find_id (n_peers n) q = Some p' /\ pchange P ev fl n p p').
  { exists p. split; [exact Hq | apply PC_same]. }
  destruct H; cbn [n_peers set_n_orc set_n_floating set_n_resolving set_n_verifying set_n_next_sock set_n_eth set_n_out set_n_cur set_n_prev set_n_peers set_n_next_id set_n_next_sid] in *;
    try (left; exact Hsame).
  - left. eapply Hup; [exact H0 | |]; [reflexivity|]. apply PC_seen. rewrite (proj2 (find_id_in _ _ _ H0)). exact H.
  - left. eapply Hup; [exact H | apply (pstep_const _ _ _ _ _ H0) | apply PC_step; exact H0].
  - left. eapply Hup; [exact H | |]; [reflexivity|]. apply PC_verdict. exact H0.
  - left. eapply Hup; [exact H | |]; [destruct old; reflexivity|]. apply PC_send; assumption.
  - left. eapply Hup; [exact H | |]; rewrite H0; [apply (reset_fn_const P (set_p_sock None p0)) | apply PC_reset; apply find_id_in in H; rewrite (proj2 H); assumption].
  - destruct (N.eq_dec q pid) as [->|E].
    + right. rewrite H in Hq. injection Hq as <-. split; [apply find_filter_gone|]. split; [assumption|]. split; assumption.
    + left. rewrite find_filter_fwd by exact E. exact Hsame.
  - left. exists p. split; [apply find_app_fwd; exact Hq | apply PC_same].
  - left. rewrite find_id_map by (intros y; destruct (pre_reload_const y) as (c & -> & _); reflexivity).
    rewrite Hq. exists (pre_reload p). split; [reflexivity | apply PC_pre; assumption].
  - left. eapply Hup; [exact H0 | |]; [cbv beta; unsup; reflexivity|].
    eapply PC_session; try eassumption. rewrite (proj2 (find_id_in _ _ _ H0)). exact H.
  - left. eapply Hup; [exact H0 | |]; [cbv beta; unsched; reflexivity|].
    apply PC_up; try assumption. rewrite (proj2 (find_id_in _ _ _ H0)). exact H.
Qed.

(** ** Running threads and Ethernet addresses *)
Definition jobs_ok (n : node) : Prop :=
  (forall j, In j (n_verifying n) -> (v_peer j < n_next_id n)%N /\
     (exists t, In (t, OVerifyStart (v_peer j) (v_raddr j)) (n_out n)) /\
     forall p, find_id (n_peers n) (v_peer j) = Some p -> is_dynamic p = true) /\
  (forall x, In x (n_resolving n) -> (fst x < n_next_id n)%N /\
     forall p, find_id (n_peers n) (fst x) = Some p -> is_dynamic p = false /\ (snd x < length (p_remotes p))%nat).
Definition eth_ok (n : node) : Prop :=
  forall e pid, In e (n_eth n) -> e_peer e = Some pid ->
  exists p, find_id (n_peers n) pid = Some p /\ is_established p = true.

Lemma found_below : forall n pid p, ids_ok n -> find_id (n_peers n) pid = Some p -> (pid < n_next_id n)%N.
Proof.
  intros n pid p [_ Hi] Hf. apply find_id_in in Hf. destruct Hf as [Hin <-]. rewrite Forall_forall in Hi. apply Hi.
  unfold ids. apply in_map. exact Hin.
Qed.
Lemma next_id_nstep : forall P ev fl n n', nstep P ev fl n n' -> (n_next_id n <= n_next_id n')%N.
Proof. intros P ev fl n n' H. apply nstep_peers in H. destruct H as (_ & [H | H] & _); rewrite H; lia. Qed.

Lemma nstep_jobs_src : forall P ev fl n n', nstep P ev fl n n' -> ids_ok n ->
  (forall j, In j (n_verifying n') -> In j (n_verifying n) \/ exists p, find_id (n_peers n) (v_peer j) = Some p /\ is_dynamic p = true /\
     In (n_now n, OVerifyStart (v_peer j) (v_raddr j)) (n_out n)) /\
  (forall x, In x (n_resolving n') -> In x (n_resolving n) \/
     exists p, find_id (n_peers n) (fst x) = Some p /\ is_dynamic p = false /\ (snd x < length (p_remotes p))%nat).
Proof.
  intros P ev fl n n' H Hi. destruct H; try (split; intros y Hy; left; exact Hy).
  - split; [intros y Hy; left; exact Hy | exact H].
  - split; [exact H | intros y Hy; left; exact Hy].
  - destruct (is_established p); split; intros y Hy; left; exact Hy.
Qed.

Lemma out_nstep : forall P ev fl n n', nstep P ev fl n n' -> exists l, n_out n' = l ++ n_out n.
Proof.
  intros P ev fl n n' H. destruct H; try (exists []; reflexivity); try (eexists [_]; reflexivity).
  destruct (is_established p); [eexists [_] | exists []]; reflexivity.
Qed.
Lemma jobs_nstep : forall P ev fl n n', nstep P ev fl n n' -> ids_ok n -> jobs_ok n -> jobs_ok n'.
Proof.
  intros P ev fl n n' H Hi [Hv Hr].
  pose proof (next_id_nstep _ _ _ _ _ H) as Hid.
  destruct (nstep_jobs_src _ _ _ _ _ H Hi) as [Sv Sr].
  assert (Hfind : forall q p', (q < n_next_id n)%N -> find_id (n_peers n') q = Some p' ->
    exists p, find_id (n_peers n) q = Some p /\ is_dynamic p' = is_dynamic p /\ length (p_remotes p') = length (p_remotes p)).
  { intros q p' Hlt Hq. destruct (nstep_find _ _ _ _ _ _ _ H Hi Hq) as [(p & Hp & Hc) | (E & _)]; [|lia].
    exists p. split; [exact Hp|]. destruct (pchange_static _ _ _ _ _ _ Hc) as (_ & _ & _ & _ & _ & _ & _ & E8 & E9 & _).
    split; [exact E9|]. rewrite <- (map_length pstatic (p_remotes p')), E8. apply map_length. }
  split.
  - intros j Hj. assert (A : (v_peer j < n_next_id n)%N /\ (exists t, In (t, OVerifyStart (v_peer j) (v_raddr j)) (n_out n)) /\ forall p, find_id (n_peers n) (v_peer j) = Some p -> is_dynamic p = true).
    { destruct (Sv j Hj) as [Hin | (p & Hp & Hd & Ho)]; [exact (Hv j Hin)|]. split; [eapply found_below; eassumption|].
      split; [exists (n_now n); exact Ho|]. intros p2 Hp2. congruence. }
    destruct A as (A & (t & Ht) & B). split; [lia|]. split; [exists t; destruct (out_nstep _ _ _ _ _ H) as [l ->]; apply in_or_app; right; exact Ht|]. intros p' Hp'. destruct (Hfind _ _ A Hp') as (p & Hp & E1 & _). rewrite E1. exact (B p Hp).
  - intros x Hx. assert (A : (fst x < n_next_id n)%N /\ forall p, find_id (n_peers n) (fst x) = Some p -> is_dynamic p = false /\ (snd x < length (p_remotes p))%nat).
    { destruct (Sr x Hx) as [Hin | (p & Hp & Hd & Hl)]; [exact (Hr x Hin)|]. split; [eapply found_below; eassumption|].
      intros p2 Hp2. rewrite Hp in Hp2. injection Hp2 as <-. split; assumption. }
    destruct A as [A B]. split; [lia|]. intros p' Hp'. destruct (Hfind _ _ A Hp') as (p & Hp & E1 & E2). rewrite E1, E2. exact (B p Hp).
Qed.

Lemma pchange_est : forall P ev fl n p p', pchange P ev fl n p p' -> is_established p = true ->
  is_established p' = true \/ p' = reset_fn P (set_p_sock None p).
Proof.
  intros P ev fl n p p' H He. destruct H; cbv zeta; unsup; try (left; exact He).
  - left. apply is_est_true. apply is_est_true in He. destruct (pstep_state _ _ _ _ _ H) as [E | (E & _)]; [congruence|].
    apply is_est_false in E. congruence.
  - left. destruct old; exact He.
  - right. reflexivity.
  - left. destruct (pre_reload_const p) as (c & -> & _). exact He.
  - left. unsched. reflexivity.
Qed.

Lemma eth_nstep : forall P ev fl n n', nstep P ev fl n n' -> ids_ok n -> eth_ok n -> eth_ok n'.
Proof.
  intros P ev fl n n' H Hi He.
  (* the entries that are there before the step *)
  assert (Hold : forall e q, In e (n_eth n) -> e_peer e = Some q -> (forall pid p f, find_id (n_peers n) pid = Some p ->
      p_id (f p) = p_id p -> (is_established p = true -> q = pid -> is_established (f p) = true) ->
      exists p', find_id (upd_id (n_peers n) pid f) q = Some p' /\ is_established p' = true)).
  { intros e q Hin Eq pid p f Hf Ef Hest. destruct (He e q Hin Eq) as (p1 & Hp1 & Est).
    rewrite (find_upd_fwd n pid f p q Hi Hf Ef). destruct (N.eqb_spec q pid) as [->|E].
    - exists (f p). split; [reflexivity|]. rewrite Hf in Hp1. injection Hp1 as <-. exact (Hest Est eq_refl).
    - exists p1. split; assumption. }
  intros e q Hin Eq.
  destruct H; cbn [n_peers n_eth set_n_orc set_n_floating set_n_resolving set_n_verifying set_n_next_sock set_n_eth set_n_out set_n_cur set_n_prev set_n_peers set_n_next_id set_n_next_sid] in *;
    try exact (He e q Hin Eq).
  - destruct (H e Hin) as [Hin0 | [E | (pid & p & E & Hp & Hest)]]; [exact (He e q Hin0 Eq) | congruence|].
    exists p. rewrite Eq in E. injection E as ->. split; assumption.
  - eapply Hold; [exact Hin | exact Eq | exact H0 | |]; [reflexivity|]. intros Est _. exact Est.
  - eapply Hold; [exact Hin | exact Eq | exact H | apply (pstep_const _ _ _ _ _ H0) |]. intros Est _.
    apply is_est_true. apply is_est_true in Est. destruct (pstep_state _ _ _ _ _ H0) as [E | (E & _)]; [congruence|].
    apply is_est_false in E. congruence.
  - eapply Hold; [exact Hin | exact Eq | exact H | |]; [reflexivity|]. intros Est _. exact Est.
  - eapply Hold; [exact Hin | exact Eq | exact H | |]; [destruct old; reflexivity|]. intros Est _. destruct old; exact Est.
  - apply filter_In in Hin. destruct Hin as [Hin Hne]. rewrite Eq in Hne.
    eapply Hold; [exact Hin | exact Eq | exact H | rewrite H0; apply (reset_fn_const P (set_p_sock None p)) |]. intros _ ->.
    rewrite N.eqb_refl in Hne. discriminate.
  - destruct (He e q Hin Eq) as (p1 & Hp1 & Est). exists p1. split; [|exact Est]. rewrite find_filter_fwd; [exact Hp1|].
    intros ->. rewrite H in Hp1. injection Hp1 as <-. apply is_est_true in Est. congruence.
  - destruct (He e q Hin Eq) as (p1 & Hp1 & Est). exists p1. split; [|exact Est]. apply find_app_fwd. exact Hp1.
  - destruct (He e q Hin Eq) as (p1 & Hp1 & Est). exists (pre_reload p1).
    rewrite find_id_map by (intros y; destruct (pre_reload_const y) as (c & -> & _); reflexivity). rewrite Hp1. split; [reflexivity|].
    destruct (pre_reload_const p1) as (c & -> & _). exact Est.
  - eapply Hold; [exact Hin | exact Eq | exact H0 | |]; [cbv beta; unsup; reflexivity|]. intros Est _. cbv beta. unsup. exact Est.
  - eapply Hold; [exact Hin | exact Eq | exact H0 | |]; [cbv beta; unsched; reflexivity|]. intros _ _. cbv beta. unsched. reflexivity.
Qed.

(** ** Peers in the history have been added before *)
Definition hist_ok (n : node) : Prop :=
  forall t o q, In (t, o) (n_out n) -> out_pid o = Some q -> (q < n_next_id n)%N.
Lemma hist_nstep : forall P ev fl n n', nstep P ev fl n n' -> ids_ok n -> hist_ok n -> hist_ok n'.
Proof.
  intros P ev fl n n' H Hi Hh t o q Hin Ho. pose proof (next_id_nstep _ _ _ _ _ H) as Hle.
  assert (Hold : In (t, o) (n_out n) -> (q < n_next_id n')%N) by (intros X; specialize (Hh t o q X Ho); lia).
  assert (Hnew : forall pid p o', out_pid o' = Some pid -> find_id (n_peers n) pid = Some p -> o = o' -> (q < n_next_id n')%N).
  { intros pid p o' E Hf ->. rewrite Ho in E. injection E as ->. apply found_below in Hf; [lia | exact Hi]. }
  destruct H; cbn [n_out set_n_out set_n_peers set_n_eth set_n_orc set_n_floating set_n_resolving set_n_verifying set_n_next_sock set_n_cur set_n_prev set_n_next_id set_n_next_sid] in Hin;
    try (exact (Hold Hin)).
  - destruct Hin as [Hin|Hin]; [|exact (Hold Hin)]. injection Hin as _ <-. destruct o0; try discriminate; destruct H.
  - destruct Hin as [Hin|Hin]; [|exact (Hold Hin)]. injection Hin as _ <-. eapply Hnew; [|exact H0 | reflexivity]. reflexivity.
  - destruct Hin as [Hin|Hin]; [|exact (Hold Hin)]. injection Hin as _ <-. eapply Hnew; [|exact H0 | reflexivity]. reflexivity.
  - destruct Hin as [Hin|Hin]; [|exact (Hold Hin)]. injection Hin as _ <-. eapply Hnew; [|exact H | reflexivity]. reflexivity.
  - destruct Hin as [Hin|Hin]; [|exact (Hold Hin)]. injection Hin as _ <-. eapply Hnew; [|exact H | reflexivity]. reflexivity.
  - destruct (is_established p); [|exact (Hold Hin)]. destruct Hin as [Hin|Hin]; [|exact (Hold Hin)]. injection Hin as _ <-.
    eapply Hnew; [|exact H | reflexivity]. reflexivity.
  - destruct Hin as [Hin|Hin]; [|exact (Hold Hin)]. injection Hin as _ <-. eapply Hnew; [|exact H0 | reflexivity]. reflexivity.
  - destruct Hin as [Hin|Hin]; [|exact (Hold Hin)]. injection Hin as _ <-. eapply Hnew; [|exact H0 | reflexivity]. reflexivity.
Qed.

(** ** The part of the invariant every step preserves *)
Record inv0 (P : params) (n : node) : Prop := mk_inv0 {
  i_wf : wf n; i_pinv : pinvs P n; i_jobs : jobs_ok n; i_eth : eth_ok n; i_hist : hist_ok n
}.
Lemma inv0_nstep : forall P ev fl n n', nstep P ev fl n n' -> inv0 P n -> inv0 P n'.
Proof.
  intros P ev fl n n' H [W Pi J E Hh]. pose proof (wf_ids _ W) as Hi. constructor.
  - eapply wf_nstep; eassumption.
  - eapply pinv_nstep; eassumption.
  - eapply jobs_nstep; eassumption.
  - eapply eth_nstep; eassumption.
  - eapply hist_nstep; eassumption.
Qed.
Lemma inv0_steps : forall P ev fl n n', steps P ev fl n n' -> inv0 P n -> inv0 P n'.
Proof. intros P ev fl n n' H. induction H as [|n n1 n2 Hs _ IH]; intros Hw; [exact Hw|]. apply IH. eapply inv0_nstep; eassumption. Qed.

(** ** Enabled peers are set up, other peers are not *)
Definition en (pid : N) (n : node) : Prop := forall p, find_id (n_peers n) pid = Some p -> is_enabled p = true.
Definition alive_at (pid : N) (n : node) : Prop :=
  forall p, find_id (n_peers n) pid = Some p -> (is_enabled p = true <-> actp p).
Definition alive (n : node) : Prop := forall pid, alive_at pid n.

Lemma conf_enabled : forall p p', p_conf p' = p_conf p -> is_enabled p' = is_enabled p.
Proof. intros p p' E. unfold is_enabled. rewrite E. reflexivity. Qed.

Lemma en_nstep : forall P ev fl n n' q, nstep P ev fl n n' -> f_rl fl = false -> ids_ok n -> en q n -> en q n'.
Proof.
  intros P ev fl n n' q H Hrl Hi He p' Hp'. destruct (nstep_find _ _ _ _ _ _ _ H Hi Hp') as [(p & Hp & Hc) | (_ & _ & _ & c & st & -> & _ & Hst)].
  - destruct (pchange_static _ _ _ _ _ _ Hc) as (_ & _ & _ & _ & _ & _ & _ & _ & _ & E). rewrite (conf_enabled p p' (E Hrl)). exact (He p Hp).
  - destruct Hst as [[X _] | [-> _]]; [congruence | reflexivity].
Qed.
Lemma en_steps : forall P ev fl n n' q, steps P ev fl n n' -> f_rl fl = false -> inv0 P n -> en q n -> en q n'.
Proof.
  intros P ev fl n n' q H Hrl. induction H as [|n n1 n2 Hs _ IH]; intros Hi He; [exact He|].
  apply IH; [eapply inv0_nstep; eassumption|]. eapply en_nstep; [exact Hs | exact Hrl | exact (wf_ids _ (i_wf _ _ Hi)) | exact He].
Qed.

Lemma pchange_alive : forall P ev fl n p p', pchange P ev fl n p p' -> f_rl fl = false -> f_rs fl (p_id p) = false ->
  (is_enabled p = true <-> actp p) -> (is_enabled p' = true <-> actp p').
Proof.
  intros P ev fl n p p' H Hrl Hrs Ha. pose proof (pchange_static _ _ _ _ _ _ H) as (_ & _ & _ & _ & _ & _ & _ & _ & _ & E).
  rewrite (conf_enabled p p' (E Hrl)). clear E. unfold actp in *. destruct H; cbv zeta; unsup; try exact Ha; try congruence.
  - destruct (pstep_state _ _ _ _ _ H) as [E | (_ & _ & E & X)]; [rewrite E; exact Ha | rewrite X; tauto].
  - destruct old; exact Ha.
  - unsched. cbn. rewrite H2. split; [discriminate | reflexivity].
Qed.
Lemma alive_nstep : forall P ev fl n n' q, nstep P ev fl n n' -> f_rl fl = false -> f_rs fl q = false -> ids_ok n -> alive_at q n -> alive_at q n'.
Proof.
  intros P ev fl n n' q H Hrl Hrs Hi Ha p' Hp'. destruct (nstep_find _ _ _ _ _ _ _ H Hi Hp') as [(p & Hp & Hc) | (_ & _ & X & _)]; [|congruence].
  eapply pchange_alive; [exact Hc | exact Hrl | apply find_id_in in Hp; rewrite (proj2 Hp); exact Hrs | exact (Ha p Hp)].
Qed.
Lemma alive_steps : forall P ev fl n n' q, steps P ev fl n n' -> f_rl fl = false -> f_rs fl q = false -> inv0 P n -> alive_at q n -> alive_at q n'.
Proof.
  intros P ev fl n n' q H Hrl Hrs. induction H as [|n n1 n2 Hs _ IH]; intros Hi He; [exact He|].
  apply IH; [eapply inv0_nstep; eassumption|]. eapply alive_nstep; [exact Hs | exact Hrl | exact Hrs | exact (wf_ids _ (i_wf _ _ Hi)) | exact He].
Qed.

(** ** The history only grows *)
Lemma out_steps : forall P ev fl n n', steps P ev fl n n' -> exists l, n_out n' = l ++ n_out n.
Proof.
  intros P ev fl n n' H. induction H as [|n n1 n2 Hs _ IH]; [exists []; reflexivity|].
  destruct (out_nstep _ _ _ _ _ Hs) as [l1 E1]. destruct IH as [l2 E2]. exists (l2 ++ l1). rewrite E2, E1. apply app_assoc.
Qed.
Lemma sent_at_steps : forall P ev fl n n' pid, steps P ev fl n n' -> sent_at n pid -> sent_at n' pid.
Proof.
  intros P ev fl n n' pid H (o & Hin & Ho). exists o. split; [|exact Ho]. rewrite (now_steps _ _ _ _ _ H).
  destruct (out_steps _ _ _ _ _ H) as [l ->]. apply in_or_app. right. exact Hin.
Qed.

(** ** Without [f_up] nobody becomes established *)
Lemma pchange_unest : forall P ev fl n p p', pchange P ev fl n p p' -> f_up fl (p_id p) = false ->
  is_established p = false -> is_established p' = false.
Proof.
  intros P ev fl n p p' H Hup He. destruct H; cbv zeta; unsup; try exact He; try congruence.
  - apply is_est_false. apply is_est_false in He. destruct (pstep_state _ _ _ _ _ H) as [E | (_ & E & _)]; congruence.
  - destruct old; exact He.
  - apply is_est_false. destruct (reset_fn_fields P (set_p_sock None p)) as (_ & _ & _ & _ & _ & _ & _ & _ & _ & _ & E & _). congruence.
  - destruct (pre_reload_const p) as (c & -> & _). exact He.
Qed.
Definition unest (q : N) (n : node) : Prop := forall p, find_id (n_peers n) q = Some p -> is_established p = false.
Lemma unest_steps : forall P ev fl n n' q, steps P ev fl n n' -> f_up fl q = false -> inv0 P n -> unest q n -> unest q n'.
Proof.
  intros P ev fl n n' q H Hup. induction H as [|n n1 n2 Hs _ IH]; intros I Hu; [exact Hu|].
  apply IH; [eapply inv0_nstep; eassumption|]. intros p' Hp'.
  destruct (nstep_find _ _ _ _ _ _ _ Hs (wf_ids _ (i_wf _ _ I)) Hp') as [(p & Hp & Hc) | (_ & _ & _ & c & st & -> & _)]; [|reflexivity].
  eapply pchange_unest; [exact Hc | rewrite (proj2 (find_id_in _ _ _ Hp)); exact Hup | exact (Hu p Hp)].
Qed.

Record inv (P : params) (n : node) : Prop := mk_inv { i_0 : inv0 P n; i_alive : alive n }.
Definition quiet (fl : flags) : Prop := f_rl fl = false /\ forall q, f_rs fl q = false.
Lemma inv_quiet : forall P ev fl n n', steps P ev fl n n' -> quiet fl -> inv P n -> inv P n'.
Proof.
  intros P ev fl n n' H [Q1 Q2] [I A]. constructor; [eapply inv0_steps; eassumption|]. intros q.
  eapply alive_steps; [exact H | exact Q1 | apply Q2 | exact I | apply A].
Qed.
