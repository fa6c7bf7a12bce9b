(** Proofs of the theorems about nodes, part 6: responses to the same address *)
From Verif Require Import Base BaseLemmas BufferModel NonceModel MethodModel HandshakeModel HandshakeSpec HandshakeProofs
  NodeModel NodeSteps NodeWf NodeInv NodeFun NodeFun2 NodeFun3 NodeFun4 NodeSpec NodeProofs NodeProofs2 NodeProofs3 NodeProofs4.
From Coq Require Import Lia ZifyBool ZifyNat ZifyN Sorted.
Local Open Scope Z_scope.

Lemma pchange_lhr : forall P ev fl n p p', pchange P ev fl n p p' -> actp p -> f_lh fl = false -> is_dynamic p = false ->
  p_lhr_to p' = p_lhr_to p /\ p_lhr_addr p' = p_lhr_addr p.
Proof.
  intros P ev fl n p p' H Ha Hl Hd. destruct H; cbv zeta; unsched; unsup; try (split; reflexivity).
  - destruct H; unsched; try (split; reflexivity); [destruct H; congruence | congruence].
  - destruct old; split; reflexivity.
  - unfold reset_fn. cbv zeta. destruct (_ || _ || _)%bool; split; reflexivity.
  - destruct (pre_reload_const p) as (c & -> & _). split; reflexivity.
Qed.

(** the last response to the connected configured peer was to [a], the pause lasts until [T] *)
Definition held (T : Z) (a : addr) (pid : N) (n : node) : Prop :=
  exists p, find_id (n_peers n) pid = Some p /\ is_dynamic p = false /\ is_established p = true /\ T <= p_lhr_to p /\ p_lhr_addr p = Some a.

Lemma held_steps : forall P ev fl n m T a pid, steps P ev fl n m -> f_lh fl = false -> inv0 P n -> uinv n ->
  (forall t, ~ newly n m t (ODown pid)) -> held T a pid n -> held T a pid m.
Proof.
  intros P ev fl n m T a pid S Hl. induction S as [n|n n1 n2 Hs S IH]; intros I U Hd Hh; [exact Hh|].
  destruct (out_steps _ _ _ _ _ (steps_one _ _ _ _ _ Hs)) as [l1 E1]. pose proof (out_steps _ _ _ _ _ S) as O2.
  pose proof (uinv_nstep _ _ _ _ _ Hs (wf_ids _ (i_wf _ _ I)) U) as U1.
  apply IH; [eapply inv0_nstep; eassumption | exact U1 | |].
  - intros t Ht. apply (Hd t). apply newly_back with n1; [exists l1; exact E1 | exact Ht].
  - destruct Hh as (p & Hp & Hdy & He & HT & Ha).
    destruct (nstep_fwd _ _ _ _ _ _ _ Hs (wf_ids _ (i_wf _ _ I)) Hp) as [(p1 & Hp1 & Hc) | (_ & Hno & _)].
    2:{ apply is_est_true in He. congruence. }
    assert (Hac : actp p) by (apply is_est_true in He; unfold actp; congruence).
    destruct (pchange_lhr _ _ _ _ _ _ Hc Hac Hl Hdy) as [X1 X2].
    exists p1. split; [exact Hp1|]. split; [|split; [|split; [rewrite X1; exact HT | rewrite X2; exact Ha]]].
    + destruct (fix_steps _ _ _ _ _ _ _ _ (steps_one _ _ _ _ _ Hs) I Hp Hp1) as (_ & _ & E & _). unfold is_dynamic in *. congruence.
    + assert (Hu : up (n_out n1) pid = true).
      { rewrite E1. apply up_kept; [apply U; exists p; split; assumption|]. intros t Ht. apply (Hd t). apply newly_front with n1; [exists l1; exact E1 | exact O2 | exists l1; split; assumption]. }
      apply U1 in Hu. destruct Hu as (q & Hq & Eq). rewrite Hp1 in Hq. injection Hq as <-. exact Eq.
Qed.

(** going back: without new connections the last response was the same before *)
Lemma lhr_back : forall P ev fl n n' pid p', steps P ev fl n n' -> f_up fl pid = false -> f_lh fl = false -> inv0 P n ->
  find_id (n_peers n') pid = Some p' -> is_established p' = true -> is_dynamic p' = false ->
  exists p, find_id (n_peers n) pid = Some p /\ is_established p = true /\ is_dynamic p = false /\ p_lhr_to p' = p_lhr_to p /\ p_lhr_addr p' = p_lhr_addr p.
Proof.
  intros P ev fl n n' pid p' H Hup Hl. induction H as [|n n1 n2 Hs _ IH]; intros I Hp' He' Hd'; [exists p'; repeat split; assumption|].
  destruct (IH (inv0_nstep _ _ _ _ _ Hs I) Hp' He' Hd') as (p1 & Hp1 & He1 & Hd1 & X1 & X2).
  destruct (nstep_find _ _ _ _ _ _ _ Hs (wf_ids _ (i_wf _ _ I)) Hp1) as [(p & Hp & Hc) | (_ & _ & _ & c & st & -> & _)]; [|discriminate].
  destruct (is_established p) eqn:E.
  - exists p. split; [exact Hp|]. split; [exact E|]. assert (Ha : actp p) by (apply is_est_true in E; unfold actp; congruence).
    assert (Hd : is_dynamic p = false).
    { destruct (fix_steps _ _ _ _ _ _ _ _ (steps_one _ _ _ _ _ Hs) I Hp Hp1) as (_ & _ & E2 & _). unfold is_dynamic in *. congruence. }
    split; [exact Hd|]. destruct (pchange_lhr _ _ _ _ _ _ Hc Ha Hl Hd) as [Y1 Y2]. rewrite X1, X2. split; assumption.
  - rewrite (pchange_unest _ _ _ _ _ _ Hc) in He1; [discriminate | rewrite (proj2 (find_id_in _ _ _ Hp)); exact Hup | exact E].
Qed.

(** ** Events *)
Definition f1 : flags := mk_flags false true all all all all no no false.
Lemma fle_fc_f1 : fle fc f1. Proof. fle. Qed.
Lemma fle_fs_f1 : forall q, fle (fs q) f1. Proof. fle. Qed.
Lemma fle_fu_f1 : forall q, fle (fu q) f1. Proof. fle. Qed.
Lemma fle_fr_f1 : forall q, fle (fr q) f1. Proof. fle. Qed.
Definition verified_ev (ev : event) : bool := match ev with EvVerified _ _ => true | _ => false end.
Lemma lh_cases : forall P n dt ev n', handles P n dt ev n' -> inv P n ->
  (exists fl, f_lh fl = false /\ (verified_ev ev = false -> forall q, f_rp fl q = false) /\ to P ev fl (tick dt n) n') \/ rsp P ev (tick dt n) n'.
Proof.
  intros P n dt ev n' H I. pose proof (handles_steps P n dt ev n' H I) as [I1 T].
  destruct ev as [sk la ra d| | | | | | |]; try (left; eexists; split; [|split; [|exact T]]; [reflexivity | intros E q; solve [reflexivity | discriminate]]).
  unfold handles, step in H. bind H as u m H1. apply modn_ok in H1. cbn [fst snd] in *. subst m.
  unfold handle in H. bind H as l m H1. apply gets_ok in H1. destruct H1 as [-> ->].
  assert (Hr : receive P sk la ra d (tick dt n) = Ok (tt, n') \/ n' = tick dt n).
  { destruct sk as [s|o1 i]; [left; exact H|]. unfold when in H. destruct (sock_alive _ _); [left; exact H|]. right. apply ret_ok in H. exact (proj2 H). }
  destruct Hr as [Hr | ->].
  - destruct (receive_to P _ sk la ra d tt (tick dt n) n' eq_refl Hr I1) as [[T1 | [V | T1]] | (pid1 & p & pkt & y & T1 & _)].
    + left. exists fc. split; [reflexivity | split; [intros _ q; reflexivity | exact T1]].
    + left. exists f1. split; [reflexivity | split; [intros _ q; reflexivity |]].
      destruct V as (pid & m1 & m2 & m3 & T1 & T2 & T3 & T4 & _). apply (to_mono _ _ _ _ _ _ fle_fc_f1) in T1. apply (to_mono _ _ _ _ _ _ (fle_fs_f1 _)) in T2.
      apply (to_mono _ _ _ _ _ _ (fle_fu_f1 _)) in T3. apply (to_mono _ _ _ _ _ _ (fle_fr_f1 _)) in T4.
      eapply to_trans; [exact T1|]. eapply to_trans; [exact T2|]. eapply to_trans; [exact T3 | exact T4].
    + right. exact T1.
    + left. exists (fx pid1). split; [reflexivity | split; [intros _ q; reflexivity | exact T1]].
  - left. exists fq. split; [reflexivity | split; [intros _ q; reflexivity | apply to_refl; exact I1]].
Qed.

Definition lhr_fn (m : node) (a : addr) (p : peer) : peer := set_p_lhr_to (n_now m + MIN_HANDSHAKE_INTERVAL) (set_p_lhr_addr (Some a) p).
(** only packets from [a] *)
Lemma uinv_tick : forall n dt, uinv n -> uinv (tick dt n).
Proof. intros n dt [A B]. split; [exact A | exact B]. Qed.

Lemma held_event : forall P n dt ev n' T a pid, handles P n dt ev n' -> inv P n -> uinv n -> T <= n_now n + MIN_HANDSHAKE_INTERVAL ->
  match ev with EvRecv _ _ ra _ => ra = a | _ => True end -> (forall t, ~ newly n n' t (ODown pid)) -> held T a pid n -> held T a pid n'.
Proof.
  intros P n dt ev n' T a pid H I U HT Hra Hd Hh. assert (I1 : inv P (tick dt n)) by apply (handles_steps P n dt ev n' H I).
  pose proof (uinv_tick n dt U) as U1. change (held T a pid (tick dt n)) in Hh.
  assert (Hd1 : forall t, ~ newly (tick dt n) n' t (ODown pid)) by exact Hd.
  destruct (lh_cases P n dt ev n' H I) as [(fl & Hl & _ & [[S _] _]) | (q & p & m1 & m2 & sk & la & ra & d & Ee & T1 & Hf & _ & Em & I2 & T2)].
  - eapply held_steps; [exact S | exact Hl | apply I1 | exact U1 | exact Hd1 | exact Hh].
  - subst ev. subst ra. pose proof (to_out _ _ _ _ _ T1) as O1. pose proof (to_out _ _ _ _ _ T2) as O2.
    assert (O12 : exists l, n_out n' = l ++ n_out m1) by (rewrite Em in O2; exact O2).
    assert (D1 : forall t, ~ newly (tick dt n) m1 t (ODown pid)) by (intros t Ht; apply (Hd1 t); exact (newly_front _ _ _ _ _ O1 O12 Ht)).
    assert (H1 : held T a pid m1) by (eapply held_steps; [apply T1 | reflexivity | apply I1 | exact U1 | exact D1 | exact Hh]).
    pose proof (uinv_steps _ _ _ _ _ (to_steps _ _ _ _ _ T1) (i_0 _ _ I1) U1) as V1.
    assert (Hi1 : ids_ok m1) by apply (wf_ids _ (i_wf _ _ (i_0 _ _ (proj2 T1)))).
    pose proof (steps_now _ _ _ _ _ (to_steps _ _ _ _ _ T1)) as En. cbn [tick n_now set_n_now] in En.
    assert (S12 : steps P (EvRecv sk la a d) fl0 m1 m2) by (rewrite Em; apply steps_one; apply N_peer with p; [exact Hf | apply ps_lhr; left; reflexivity]).
    assert (H2 : held T a pid m2).
    { destruct H1 as (p1 & Hp1 & X1 & X2 & X3 & X4). rewrite Em. unfold held. cbn [n_peers set_n_peers]. fold (lhr_fn m1 a).
      rewrite (find_upd_fwd m1 q (lhr_fn m1 a) p pid Hi1 Hf eq_refl). destruct (N.eqb_spec pid q) as [->|_]; [|exists p1; repeat split; assumption].
      rewrite Hf in Hp1. injection Hp1 as <-. eexists. split; [reflexivity|]. unfold lhr_fn. split; [exact X1|]. split; [exact X2|]. cbn [p_lhr_to p_lhr_addr set_p_lhr_to set_p_lhr_addr].
      split; [lia | reflexivity]. }
    eapply held_steps; [apply T2 | reflexivity | apply I2 | exact (uinv_steps _ _ _ _ _ S12 (i_0 _ _ (proj2 T1)) V1) | | exact H2].
    intros t Ht. apply (Hd1 t). apply newly_back with m1; [exact O1|]. rewrite Em in Ht. exact Ht.
Qed.

Lemma run_out : forall P evs n n', run P evs n = Ok (tt, n') -> inv P n -> exists l, n_out n' = l ++ n_out n.
Proof.
  intros P evs. unfold run. induction evs as [|[dt ev] evs IH]; intros n n' H I; cbn [each] in H.
  - apply ret_ok in H. destruct H as [_ ->]. exists []. reflexivity.
  - bind H as u m H1. destruct u. pose proof (handles_steps P n dt ev m H1 I) as [I1 [[S _] I2]]. destruct (IH m n' H I2) as [l ->].
    destruct (out_steps _ _ _ _ _ S) as [l2 ->]. exists (l ++ l2). cbn [tick n_out set_n_now]. rewrite app_assoc. reflexivity.
Qed.
Lemma run_now : forall P evs n n', run P evs n = Ok (tt, n') -> inv P n -> n_now n <= n_now n'.
Proof.
  intros P evs. unfold run. induction evs as [|[dt ev] evs IH]; intros n n' H I; cbn [each] in H.
  - apply ret_ok in H. destruct H as [_ ->]. lia.
  - bind H as u m H1. destruct u. pose proof (handles_steps P n dt ev m H1 I) as [I1 [[S _] I2]]. specialize (IH m n' H I2).
    rewrite (steps_now _ _ _ _ _ S) in IH. cbn [tick n_now set_n_now] in IH. lia.
Qed.
Lemma held_run : forall P evs n n' T a pid, run P evs n = Ok (tt, n') -> inv P n -> uinv n -> T <= n_now n + MIN_HANDSHAKE_INTERVAL ->
  (forall e, In e evs -> only_from a e) -> (forall t, ~ newly n n' t (ODown pid)) -> held T a pid n -> held T a pid n'.
Proof.
  intros P evs. unfold run. induction evs as [|[dt ev] evs IH]; intros n n' T a pid H I U HT Hra Hd Hh; cbn [each] in H.
  - apply ret_ok in H. destruct H as [_ ->]. exact Hh.
  - bind H as u m H1. destruct u. pose proof (handles_steps P n dt ev m H1 I) as [I1 [[S _] I2]].
    assert (O1 : exists l, n_out m = l ++ n_out n) by (destruct (out_steps _ _ _ _ _ S) as [l E]; exists l; exact E).
    assert (O2 : exists l, n_out n' = l ++ n_out m) by (eapply run_out; [exact H | exact I2]).
    apply (IH m n' T a pid H I2).
    + pose proof (uinv_steps _ _ _ _ _ S (i_0 _ _ I1) (uinv_tick n dt U)) as X. exact X.
    + rewrite (steps_now _ _ _ _ _ S). cbn [tick n_now set_n_now]. lia.
    + intros e He. apply Hra. right. exact He.
    + intros t Ht. apply (Hd t). apply newly_back with m; assumption.
    + eapply held_event; [exact H1 | exact I | exact U | exact HT | exact (Hra (dt, ev) (or_introl eq_refl)) | | exact Hh].
      intros t Ht. apply (Hd t). eapply newly_front; eassumption.
Qed.

(** who sends responses *)
Lemma resp_rsp : forall P n dt ev n' t a pid s m p', handles P n dt ev n' -> inv P n -> newly n n' t (OResp pid a s m) ->
  find_id (n_peers n') pid = Some p' -> is_dynamic p' = false ->
  exists p m1 m2 sk la d, ev = EvRecv sk la a d /\ to P ev fc (tick dt n) m1 /\ find_id (n_peers m1) pid = Some p /\
    (p_lhr_to p <= n_now m1 \/ p_lhr_addr p <> Some a) /\
    m2 = set_n_peers (upd_id (n_peers m1) pid (fun p => set_p_lhr_to (n_now m1 + MIN_HANDSHAKE_INTERVAL) (set_p_lhr_addr (Some a) p))) m1 /\
    inv P m2 /\ to P ev (fp (N.eqb pid)) m2 n' /\ t = n_now m1 /\ n_now m1 = n_now n' /\ n_now m1 = n_now (tick dt n).
Proof.
  intros P n dt ev n' t a pid s m p' H I Hn Hf' Hd'. pose proof (handles_steps P n dt ev n' H I) as [I1 T]. change (newly (tick dt n) n' t (OResp pid a s m)) in Hn.
  destruct (lh_cases P n dt ev n' H I) as [(fl & Hl & Hr & [[S _] _]) | (q & p & m1 & m2 & sk & la & ra & d & Ee & T1 & Hf & G & Em & I2 & T2)].
  - exfalso. destruct (steps_new _ _ _ _ _ _ _ S Hn) as (b & c & Sb & Hs & Sc & Eo & _).
    destruct (nstep_resp _ _ _ _ _ _ _ _ _ _ Hs Eo) as (X & p & Hp & _ & _ & Y). destruct (verified_ev ev) eqn:Ev; [|rewrite (Hr eq_refl pid) in X; discriminate].
    destruct ev; try discriminate. pose proof (inv0_steps _ _ _ _ _ Sb (i_0 _ _ I1)) as Ib.
    destruct (fix_steps _ _ _ _ _ _ _ _ (steps_step _ _ _ _ _ _ Hs Sc) Ib Hp Hf') as (_ & _ & E & _). unfold is_dynamic in *. congruence.
  - pose proof (to_out _ _ _ _ _ T1) as O1. pose proof (to_out _ _ _ _ _ T2) as O2.
    assert (O12 : exists l, n_out n' = l ++ n_out m1) by (rewrite Em in O2; exact O2).
    destruct (newly_trans _ _ _ _ _ O1 O12 Hn) as [N1 | N1].
    + exfalso. destruct (steps_new _ _ _ _ _ _ _ (to_steps _ _ _ _ _ T1) N1) as (b & c & Sb & Hs & Sc & Eo & _).
      destruct (nstep_resp _ _ _ _ _ _ _ _ _ _ Hs Eo) as (X & _). discriminate.
    + assert (N2 : newly m2 n' t (OResp pid a s m)) by (rewrite Em; exact N1).
      destruct (steps_new _ _ _ _ _ _ _ (to_steps _ _ _ _ _ T2) N2) as (b & c & Sb & Hs & Sc & Eo & Et).
      destruct (nstep_resp _ _ _ _ _ _ _ _ _ _ Hs Eo) as (X & p2 & _ & _ & _ & Y). cbn [f_rp fp] in X. apply N.eqb_eq in X. subst q. rewrite Ee in Y. destruct Y as [-> _].
      exists p, m1, m2, sk, la, d. split; [exact Ee|]. split; [exact T1|]. split; [exact Hf|]. split; [exact G|]. split; [exact Em|]. split; [exact I2|]. split; [exact T2|].
      pose proof (steps_now _ _ _ _ _ (to_steps _ _ _ _ _ T1)) as E1. pose proof (steps_now _ _ _ _ _ (to_steps _ _ _ _ _ T2)) as E2. pose proof (steps_now _ _ _ _ _ Sb) as E3.
      assert (Em2 : n_now m2 = n_now m1) by (rewrite Em; reflexivity). repeat split; congruence.
Qed.

Lemma responses_spaced : forall P n dt ev n1 t1 pid a s1 w1 p1 evs n2 dt2 ev2 n3 t3 s3 w3,
  reachable P n -> handles P n dt ev n1 -> newly n n1 t1 (OResp pid a s1 w1) ->
  find_id (n_peers n1) pid = Some p1 -> p_conf p1 <> CDynamic -> up (n_out n1) pid = true ->
  run P evs n1 = Ok (tt, n2) -> (forall e, In e evs -> only_from a e) ->
  handles P n2 dt2 ev2 n3 -> newly n2 n3 t3 (OResp pid a s3 w3) -> (forall t, ~ newly n1 n3 t (ODown pid)) ->
  t1 + 15000 <= t3.
Proof.
  intros P n dt ev n1 t1 pid a s1 w1 p1 evs n2 dt2 ev2 n3 t3 s3 w3 R H1 N1 Hf1 Hc1 U1 Hrun Hfrom H3 N3 Hd.
  pose proof (reachable_inv P n R) as I. pose proof (later_reachable P n n1 R (handles_later _ _ _ _ _ H1)) as R1. pose proof (reachable_inv P n1 R1) as I1.
  pose proof (later_reachable P n1 n2 R1 (ex_intro _ evs Hrun)) as R2. pose proof (reachable_inv P n2 R2) as I2.
  pose proof (later_reachable P n2 n3 R2 (handles_later _ _ _ _ _ H3)) as R3. pose proof (reachable_inv P n3 R3) as I3.
  assert (Hd1 : is_dynamic p1 = false) by (destruct (is_dynamic p1) eqn:E; [apply is_dyn_true in E; congruence | reflexivity]).
  destruct (resp_rsp _ _ _ _ _ _ _ _ _ _ _ H1 I N1 Hf1 Hd1) as (p & m1 & m2 & sk & la & d & Ee & T1 & Hf & _ & Em & J2 & T2 & Et & En & _).
  assert (Hh1 : held (t1 + MIN_HANDSHAKE_INTERVAL) a pid n1).
  { apply (proj2 (reachable_uinv P n1 R1)) in U1. destruct U1 as (q & Hq & He). rewrite Hf1 in Hq. injection Hq as <-.
    destruct (lhr_back _ _ _ _ _ _ _ (to_steps _ _ _ _ _ T2) eq_refl eq_refl (i_0 _ _ J2) Hf1 He Hd1) as (p0 & Hp0 & _ & _ & X1 & X2).
    exists p1. split; [exact Hf1|]. split; [exact Hd1|]. split; [exact He|]. rewrite X1, X2.
    assert (Hi1 : ids_ok m1) by apply (wf_ids _ (i_wf _ _ (i_0 _ _ (proj2 T1)))).
    rewrite Em in Hp0. cbn [n_peers set_n_peers] in Hp0. fold (lhr_fn m1 a) in Hp0. rewrite (find_upd_fwd m1 pid (lhr_fn m1 a) p pid Hi1 Hf eq_refl) in Hp0. rewrite N.eqb_refl in Hp0. injection Hp0 as <-. unfold lhr_fn.
    cbn [p_lhr_to p_lhr_addr set_p_lhr_to set_p_lhr_addr]. split; [lia | reflexivity]. }
  assert (O2 : exists l, n_out n2 = l ++ n_out n1) by (eapply run_out; [exact Hrun | exact I1]).
  pose proof (handles_steps P n2 dt2 ev2 n3 H3 I2) as [K2 T3].
  assert (O3 : exists l, n_out n3 = l ++ n_out n2) by (destruct (to_out _ _ _ _ _ T3) as [l E]; exists l; exact E).
  assert (Hh2 : held (t1 + MIN_HANDSHAKE_INTERVAL) a pid n2).
  { eapply held_run; [exact Hrun | exact I1 | apply reachable_uinv with P; exact R1 | lia | exact Hfrom | | exact Hh1].
    intros t Ht. apply (Hd t). eapply newly_front; eassumption. }
  assert (Dn : forall t, ~ newly n2 n3 t (ODown pid)) by (intros t Ht; apply (Hd t); eapply newly_back; eassumption).
  (* the peer in the last event *)
  assert (X : exists p3, find_id (n_peers n3) pid = Some p3 /\ is_dynamic p3 = false).
  { destruct Hh2 as (q & Hq & Q1 & Q2 & _). assert (U3 : up (n_out n3) pid = true).
    { destruct O3 as [l E]. rewrite E. apply up_kept; [apply (proj2 (reachable_uinv P n2 R2)); exists q; split; assumption|].
      intros t Ht. apply (Dn t). exists l. split; assumption. }
    apply (proj2 (reachable_uinv P n3 R3)) in U3. destruct U3 as (p3 & Hp3 & _). exists p3. split; [exact Hp3|].
    destruct (fix_steps _ _ _ _ _ _ _ _ (to_steps _ _ _ _ _ T3) (i_0 _ _ K2) Hq Hp3) as (_ & _ & E & _). unfold is_dynamic in *. congruence. }
  destruct X as (p3 & Hp3 & Hdy3).
  destruct (resp_rsp _ _ _ _ _ _ _ _ _ _ _ H3 I2 N3 Hp3 Hdy3) as (p' & m1' & m2' & sk' & la' & d' & Ee' & T1' & Hf' & G & Em' & J2' & T2' & Et' & En' & En2).
  assert (Hh3 : held (t1 + MIN_HANDSHAKE_INTERVAL) a pid m1').
  { eapply held_steps; [apply T1' | reflexivity | apply K2 | apply uinv_tick; apply reachable_uinv with P; exact R2 | | exact Hh2].
    intros t Ht. apply (Dn t). change (newly (tick dt2 n2) n3 t (ODown pid)). apply newly_front with m1'; [exact (to_out _ _ _ _ _ T1') | | exact Ht].
    destruct (to_out _ _ _ _ _ T2') as [l E]. exists l. rewrite E, Em'. reflexivity. }
  destruct Hh3 as (q & Hq & _ & _ & X1 & X2). rewrite Hf' in Hq. injection Hq as <-. unfold MIN_HANDSHAKE_INTERVAL in X1.
  destruct G as [G | G]; [lia | congruence].
Qed.
