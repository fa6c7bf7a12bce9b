(** Proofs of the theorems about nodes, part 4: pauses between handshakes, timeouts
    and keepalives *)
From Verif Require Import Base BaseLemmas BufferModel NonceModel MethodModel HandshakeModel HandshakeSpec HandshakeProofs
  NodeModel NodeSteps NodeWf NodeInv NodeFun NodeFun2 NodeFun3 NodeFun4 NodeSpec NodeProofs NodeProofs2 NodeProofs3.
From Coq Require Import Lia ZifyBool ZifyNat ZifyN Sorted.
Local Open Scope Z_scope.

(** ** C28: handshakes after a session was established *)
Definition calm (fl : flags) : Prop := forall q, f_up fl q = false /\ f_es fl q = false.
Lemma ev_cases : forall P n dt ev n', handles P n dt ev n' -> inv P n ->
  (exists fl, calm fl /\ to P ev fl (tick dt n) n') \/ via P ev (tick dt n) n'.
Proof.
  intros P n dt ev n' H I. pose proof (handles_steps P n dt ev n' H I) as [I1 T].
  destruct ev as [sk la ra d| | | | | | |]; try (left; eexists; split; [|exact T]; intros q; split; reflexivity).
  unfold handles, step in H. bind H as u m H1. apply modn_ok in H1. cbn [fst snd] in *. subst m.
  unfold handle in H. bind H as l m H1. apply gets_ok in H1. destruct H1 as [-> ->].
  assert (Hr : receive P sk la ra d (tick dt n) = Ok (tt, n') \/ n' = tick dt n).
  { destruct sk as [s|o1 i]; [left; exact H|]. unfold when in H. destruct (sock_alive _ _); [left; exact H|]. right. apply ret_ok in H. exact (proj2 H). }
  destruct Hr as [Hr | ->].
  - destruct (receive_to P _ sk la ra d tt (tick dt n) n' eq_refl Hr I1) as [[T1 | [V | T1]] | (pid1 & p & pkt & y & T1 & _)].
    + left. exists fc. split; [intros q; split; reflexivity | exact T1].
    + right. exact V.
    + left. exists fg. split; [intros q; split; reflexivity | apply rsp_to; assumption].
    + left. exists (fx pid1). split; [intros q; split; reflexivity | exact T1].
  - left. exists fq. split; [intros q; split; reflexivity | apply to_refl; exact I1].
Qed.

Lemma steps_now : forall P ev fl n n', steps P ev fl n n' -> n_now n' = n_now n.
Proof. intros P ev fl n n' H. induction H as [|n n1 n2 Hs _ IH]; [reflexivity|]. rewrite IH. exact (nstep_now _ _ _ _ _ Hs). Qed.

(** peers that do not become established here: their pause is kept or begins now *)
Lemma kept_steps : forall P ev fl n n' pid p', steps P ev fl n n' -> f_up fl pid = false -> inv0 P n ->
  find_id (n_peers n') pid = Some p' -> is_established p' = true ->
  exists p, find_id (n_peers n) pid = Some p /\ is_established p = true /\ (p_eh_to p' = p_eh_to p \/ p_eh_to p' = n_now n + MIN_HANDSHAKE_INTERVAL).
Proof.
  intros P ev fl n n' pid p' H Hup. induction H as [|n n1 n2 Hs _ IH]; intros I Hp' He'; [exists p'; split; [exact Hp'|]; split; [exact He' | left; reflexivity]|].
  destruct (IH (inv0_nstep _ _ _ _ _ Hs I) Hp' He') as (p1 & Hp1 & He1 & E1). rewrite (nstep_now _ _ _ _ _ Hs) in E1.
  destruct (nstep_find _ _ _ _ _ _ _ Hs (wf_ids _ (i_wf _ _ I)) Hp1) as [(p & Hp & Hc) | (_ & _ & _ & c & st & -> & _)]; [|discriminate].
  destruct (is_established p) eqn:E.
  - exists p. split; [exact Hp|]. split; [exact E|]. assert (Ha : actp p) by (apply is_est_true in E; unfold actp; congruence).
    destruct (pchange_eh _ _ _ _ _ _ Hc Ha) as [X | X]; destruct E1 as [E1 | E1]; rewrite E1; auto.
  - rewrite (pchange_unest _ _ _ _ _ _ Hc) in He1; [discriminate | rewrite (proj2 (find_id_in _ _ _ Hp)); exact Hup | exact E].
Qed.
Lemma steps_session : forall P ev fl n n' t o pid key serial, steps P ev fl n n' -> newly n n' t o -> is_session o pid key serial -> f_es fl pid = true.
Proof.
  intros P ev fl n n' t o pid key serial S Hn (conf & ini & hk & salt & sigma & method & sid & src & ->).
  destruct (steps_new _ _ _ _ _ _ _ S Hn) as (m1 & m2 & _ & Hs & _ & Eo & _). revert Eo. clear - Hs.
  destruct Hs; intros E; outcbn; try (exfalso; exact (cons_self _ _ _ E)); try (injection E as _ E; subst; try discriminate; try contradiction).
  - destruct (is_established p); [discriminate | exfalso; exact (cons_self _ _ _ E)].
  - assumption.
Qed.

(** the pause of a peer lasts at least until [T] *)
Definition paused (T : Z) (pid : N) (n : node) : Prop :=
  T <= n_now n + MIN_HANDSHAKE_INTERVAL /\ forall p, find_id (n_peers n) pid = Some p -> is_established p = true -> T <= p_eh_to p.
Lemma paused_steps : forall P ev fl n n' T pid, steps P ev fl n n' -> f_up fl pid = false -> inv0 P n -> paused T pid n -> paused T pid n'.
Proof.
  intros P ev fl n n' T pid S Hup I [H1 H2]. split; [rewrite (steps_now _ _ _ _ _ S); exact H1|]. intros p' Hp' He'.
  destruct (kept_steps _ _ _ _ _ _ _ S Hup I Hp' He') as (p & Hp & He & E). specialize (H2 p Hp He). destruct E as [E | E]; rewrite E; [exact H2 | exact H1].
Qed.
Lemma via_now : forall P ev n n', via P ev n n' -> n_now n' = n_now n.
Proof.
  intros P ev n n' (pid & m1 & m2 & m3 & [[S1 _] _] & [[S2 _] _] & [[S3 _] _] & [[S4 _] _] & _).
  rewrite (steps_now _ _ _ _ _ S4), (steps_now _ _ _ _ _ S3), (steps_now _ _ _ _ _ S2). exact (steps_now _ _ _ _ _ S1).
Qed.
Lemma paused_event : forall P n dt ev n' T pid, handles P n dt ev n' -> inv P n -> paused T pid n -> paused T pid n'.
Proof.
  intros P n dt ev n' T pid H I [H1 H2]. assert (I1 : inv P (tick dt n)) by apply (handles_steps P n dt ev n' H I).
  assert (Hp : paused T pid (tick dt n)) by (split; [cbn [tick n_now set_n_now]; lia | exact H2]).
  destruct (ev_cases P n dt ev n' H I) as [(fl & C & [[S _] _]) | V].
  - eapply paused_steps; [exact S | apply C | apply I1 | exact Hp].
  - pose proof (via_now _ _ _ _ V) as En. destruct V as (q & m1 & m2 & m3 & [[S1 _] J1] & [[S2 _] J2] & [[S3 _] J3] & [[S4 _] J4] & B).
    destruct (N.eq_dec q pid) as [->|Hne].
    + split; [rewrite En; apply Hp|]. intros p Hf He. rewrite (B p Hf He), En. apply Hp.
    + assert (Hu : f_up (fu q) pid = false) by (cbn; lia).
      eapply paused_steps; [exact S4 | reflexivity | apply J3|]. eapply paused_steps; [exact S3 | exact Hu | apply J2|].
      eapply paused_steps; [exact S2 | reflexivity | apply J1|]. eapply paused_steps; [exact S1 | reflexivity | apply I1 | exact Hp].
Qed.
Lemma paused_later : forall P n n' T pid, later P n n' -> inv P n -> paused T pid n -> paused T pid n'.
Proof.
  intros P n n' T pid (evs & H). unfold run in H. revert n H. induction evs as [|[dt ev] evs IH]; intros n H I Hp; cbn [each] in H.
  - apply ret_ok in H. destruct H as [_ ->]. exact Hp.
  - bind H as u m H1. destruct u. apply (IH m H); [apply (handles_steps P n dt ev m H1 I) | eapply paused_event; eassumption].
Qed.
Lemma newly_now : forall P ev fl n n' t o, steps P ev fl n n' -> newly n n' t o -> t = n_now n.
Proof.
  intros P ev fl n n' t o S Hn. destruct (steps_new _ _ _ _ _ _ _ S Hn) as (m1 & m2 & S1 & Hs & _ & Eo & _).
  destruct (nstep_out _ _ _ _ _ Hs) as [E | (o' & E)].
  - rewrite E in Eo. exfalso. exact (cons_self _ _ _ Eo).
  - rewrite E in Eo. injection Eo as <- _. exact (steps_now _ _ _ _ _ S1).
Qed.

Lemma session_pauses : forall P n dt ev n' t o pid key serial, reachable P n -> handles P n dt ev n' -> newly n n' t o -> is_session o pid key serial ->
  paused (t + MIN_HANDSHAKE_INTERVAL) pid n'.
Proof.
  intros P n dt ev n' t o pid key serial R H Hn Ho. pose proof (reachable_inv P n R) as I. change (newly (tick dt n) n' t o) in Hn.
  pose proof (handles_steps P n dt ev n' H I) as [I1 [[S _] _]]. pose proof (newly_now _ _ _ _ _ _ _ S Hn) as Et. pose proof (steps_now _ _ _ _ _ S) as En.
  destruct (ev_cases P n dt ev n' H I) as [(fl & C & [[S' _] _]) | V].
  - pose proof (steps_session _ _ _ _ _ _ _ _ _ _ S' Hn Ho) as X. rewrite (proj2 (C pid)) in X. discriminate.
  - destruct V as (q & m1 & m2 & m3 & T1 & T2 & T3 & T4 & B).
    pose proof (to_out _ _ _ _ _ T1) as O1. pose proof (to_out _ _ _ _ _ T2) as O2. pose proof (to_out _ _ _ _ _ T3) as O3. pose proof (to_out _ _ _ _ _ T4) as O4.
    assert (O34 : exists l, n_out n' = l ++ n_out m2) by (destruct O3 as [l3 E3]; destruct O4 as [l4 E4]; exists (l4 ++ l3); rewrite E4, E3; apply app_assoc).
    assert (O234 : exists l, n_out n' = l ++ n_out m1) by (destruct O2 as [l2 E2]; destruct O34 as [l4 E4]; exists (l4 ++ l2); rewrite E4, E2; apply app_assoc).
    assert (Eq : q = pid).
    { destruct (newly_trans _ _ _ _ _ O1 O234 Hn) as [N1 | N1]; [pose proof (steps_session _ _ _ _ _ _ _ _ _ _ (to_steps _ _ _ _ _ T1) N1 Ho); discriminate|].
      destruct (newly_trans _ _ _ _ _ O2 O34 N1) as [N2 | N2]; [pose proof (steps_session _ _ _ _ _ _ _ _ _ _ (to_steps _ _ _ _ _ T2) N2 Ho) as X; cbn [f_es fs] in X; lia|].
      destruct (newly_trans _ _ _ _ _ O3 O4 N2) as [N3 | N3]; [pose proof (steps_session _ _ _ _ _ _ _ _ _ _ (to_steps _ _ _ _ _ T3) N3 Ho); discriminate|].
      pose proof (steps_session _ _ _ _ _ _ _ _ _ _ (to_steps _ _ _ _ _ T4) N3 Ho). discriminate. }
    subst q. split; [rewrite En, Et; lia|]. intros p Hf He. rewrite (B p Hf He), En, Et. lia.
Qed.

Lemma up_kept : forall l r pid, up r pid = true -> (forall t, ~ In (t, ODown pid) l) -> up (l ++ r) pid = true.
Proof.
  induction l as [|[t o] l IH]; intros r pid Hr Hd; [exact Hr|]. specialize (IH r pid Hr (fun t' H => Hd t' (or_intror H))).
  destruct o; cbn [up app]; try exact IH.
  - destruct (N.eqb pid0 pid); [reflexivity | exact IH].
  - destruct (N.eqb_spec pid0 pid) as [E|_]; [|exact IH]. exfalso. apply (Hd t). left. rewrite E. reflexivity.
Qed.
Lemma uinv_steps : forall P ev fl n n', steps P ev fl n n' -> inv0 P n -> uinv n -> uinv n'.
Proof.
  intros P ev fl n n' S. induction S as [|n n1 n2 Hs _ IH]; intros I U; [exact U|]. apply IH; [eapply inv0_nstep; eassumption|].
  eapply uinv_nstep; [exact Hs | apply I | exact U].
Qed.

(** in the middle of an event: a peer that is not disconnected in it keeps its pause *)
Lemma newly_front : forall n n1 n2 t o, (exists l, n_out n1 = l ++ n_out n) -> (exists l, n_out n2 = l ++ n_out n1) -> newly n n1 t o -> newly n n2 t o.
Proof.
  intros n n1 n2 t o [l1 E1] [l2 E2] (l & E & Hin). exists (l2 ++ l1). split; [rewrite E2, E1; apply app_assoc|].
  rewrite E1 in E. apply app_inv_tail in E. subst l. apply in_or_app. right. exact Hin.
Qed.
Lemma newly_back : forall n n1 n2 t o, (exists l, n_out n1 = l ++ n_out n) -> newly n1 n2 t o -> newly n n2 t o.
Proof.
  intros n n1 n2 t o [l1 E1] (l & E & Hin). exists (l ++ l1). split; [rewrite E, E1; apply app_assoc|]. apply in_or_app. left. exact Hin.
Qed.
Lemma stay_steps : forall P ev fl n m pid p', steps P ev fl n m -> inv0 P n -> uinv n -> up (n_out n) pid = true ->
  (forall t, ~ newly n m t (ODown pid)) -> find_id (n_peers m) pid = Some p' ->
  exists p, find_id (n_peers n) pid = Some p /\ is_established p = true /\ is_established p' = true /\
    (p_eh_to p' = p_eh_to p \/ p_eh_to p' = n_now n + MIN_HANDSHAKE_INTERVAL).
Proof.
  intros P ev fl n m pid p' S. induction S as [n|n n1 n2 Hs S IH]; intros I U Hu Hd Hf.
  - apply U in Hu. destruct Hu as (p & Hp & He). rewrite Hf in Hp. injection Hp as <-. exists p'. repeat split; try assumption. left. reflexivity.
  - destruct (out_steps _ _ _ _ _ (steps_one _ _ _ _ _ Hs)) as [l1 E1]. pose proof (out_steps _ _ _ _ _ S) as O2.
    assert (Hu1 : up (n_out n1) pid = true).
    { rewrite E1. apply up_kept; [exact Hu|]. intros t Ht. apply (Hd t). apply newly_front with n1; [exists l1; exact E1 | exact O2 | exists l1; split; assumption]. }
    destruct (IH (inv0_nstep _ _ _ _ _ Hs I) (uinv_nstep _ _ _ _ _ Hs (wf_ids _ (i_wf _ _ I)) U) Hu1) as (p1 & Hp1 & He1 & He' & X).
    { intros t Ht. apply (Hd t). apply newly_back with n1; [exists l1; exact E1 | exact Ht]. }
    { exact Hf. }
    apply U in Hu. destruct Hu as (p & Hp & He). exists p. split; [exact Hp|]. split; [exact He|]. split; [exact He'|].
    destruct (nstep_fwd _ _ _ _ _ _ _ Hs (wf_ids _ (i_wf _ _ I)) Hp) as [(p2 & Hp2 & Hc) | (Hno & _)]; [|congruence].
    rewrite Hp1 in Hp2. injection Hp2 as <-. assert (Ha : actp p) by (apply is_est_true in He; unfold actp; congruence).
    rewrite (nstep_now _ _ _ _ _ Hs) in X. destruct (pchange_eh _ _ _ _ _ _ Hc Ha) as [Y | Y]; destruct X as [X | X]; rewrite X; auto.
Qed.
Lemma stay_paused : forall P ev fl n m pid p' T, steps P ev fl n m -> inv0 P n -> uinv n -> up (n_out n) pid = true ->
  (forall t, ~ newly n m t (ODown pid)) -> paused T pid n -> find_id (n_peers m) pid = Some p' -> T <= p_eh_to p'.
Proof.
  intros P ev fl n m pid p' T S I U Hu Hd [H1 H2] Hf. destruct (stay_steps _ _ _ _ _ _ _ S I U Hu Hd Hf) as (p & Hp & He & _ & [X | X]); rewrite X; [exact (H2 p Hp He) | exact H1].
Qed.

(** A second session of a peer that stays connected is at least 15 seconds younger *)
Lemma sessions_spaced : forall P n dt ev n1 t1 o1 pid key1 serial1 n2 dt2 ev2 n3 t3 o3 key3 serial3,
  reachable P n -> handles P n dt ev n1 -> newly n n1 t1 o1 -> is_session o1 pid key1 serial1 ->
  later P n1 n2 -> up (n_out n2) pid = true ->
  handles P n2 dt2 ev2 n3 -> newly n2 n3 t3 o3 -> is_session o3 pid key3 serial3 -> (forall t, ~ newly n2 n3 t (ODown pid)) ->
  t1 + 15000 <= t3.
Proof.
  intros P n dt ev n1 t1 o1 pid key1 serial1 n2 dt2 ev2 n3 t3 o3 key3 serial3 R H1 N1 S1 L U2 H2 N3 S3 Hd.
  pose proof (session_pauses _ _ _ _ _ _ _ _ _ _ R H1 N1 S1) as Q1.
  pose proof (later_reachable P n n1 R (handles_later _ _ _ _ _ H1)) as R1. pose proof (later_reachable P n1 n2 R1 L) as R2.
  pose proof (paused_later _ _ _ _ _ L (reachable_inv P n1 R1) Q1) as Q2.
  pose proof (handles_steps P n2 dt2 ev2 n3 H2 (reachable_inv P n2 R2)) as [I3 [[S _] _]].
  change (newly (tick dt2 n2) n3 t3 o3) in N3. pose proof (newly_now _ _ _ _ _ _ _ S N3) as Et.
  destruct S3 as (conf & ini & hk & salt & sigma & method & sid & src & ->).
  destruct (steps_new _ _ _ _ _ _ _ S N3) as (a & b & Sa & Hs & Sb & Eo & _).
  destruct (nstep_session _ _ _ _ _ _ _ _ _ _ _ _ _ _ _ _ _ Hs Eo) as (p & compat & Hp & _ & _ & _ & _ & [_ _ _ _ _ X _ _ _]).
  assert (T : t1 + MIN_HANDSHAKE_INTERVAL <= p_eh_to p).
  { eapply stay_paused; [exact Sa | apply I3 | | exact U2 | | | exact Hp].
    - destruct (reachable_uinv P n2 R2) as [A B]. split; [exact A | exact B].
    - intros t Ht. apply (Hd t). change (newly (tick dt2 n2) n3 t (ODown pid)). apply newly_front with a; [eapply out_steps; exact Sa | | exact Ht].
      destruct (out_steps _ _ _ _ _ Sb) as [l El]. exists (l ++ [(t3, OSession pid key3 conf ini serial3 hk salt sigma method sid src)]). rewrite El, Eo, <- app_assoc. reflexivity.
    - destruct Q2 as [Q2 Q3]. split; [cbn [tick n_now set_n_now]; unfold MIN_HANDSHAKE_INTERVAL in *; lia | exact Q3]. }
  rewrite (steps_now _ _ _ _ _ Sa) in X. unfold MIN_HANDSHAKE_INTERVAL in *. lia.
Qed.

(** ... and in that time no handshake is answered *)
Lemma nstep_resp : forall P ev fl n n' t pid a serial m, nstep P ev fl n n' -> n_out n' = (t, OResp pid a serial m) :: n_out n -> plain_out P ev fl n (OResp pid a serial m).
Proof.
  intros P ev fl n n' t pid a serial m H E.
  destruct H; outcbn; try (exfalso; exact (cons_self _ _ _ E)); try (injection E as _ E; subst; try discriminate; try assumption).
  destruct (is_established p); [discriminate | exfalso; exact (cons_self _ _ _ E)].
Qed.
Lemma responses_paused : forall P n dt ev n1 t1 o1 pid key1 serial1 n2 dt2 sk la ra d n3 t3 a serial3 m3,
  reachable P n -> handles P n dt ev n1 -> newly n n1 t1 o1 -> is_session o1 pid key1 serial1 ->
  later P n1 n2 -> up (n_out n2) pid = true ->
  handles P n2 dt2 (EvRecv sk la ra d) n3 -> newly n2 n3 t3 (OResp pid a serial3 m3) -> (forall t, ~ newly n2 n3 t (ODown pid)) ->
  t1 + 15000 <= t3.
Proof.
  intros P n dt ev n1 t1 o1 pid key1 serial1 n2 dt2 sk la ra d n3 t3 ad serial3 m3 R H1 N1 S1 L U2 H2 N3 Hd.
  pose proof (session_pauses _ _ _ _ _ _ _ _ _ _ R H1 N1 S1) as Q1.
  pose proof (later_reachable P n n1 R (handles_later _ _ _ _ _ H1)) as R1. pose proof (later_reachable P n1 n2 R1 L) as R2.
  pose proof (paused_later _ _ _ _ _ L (reachable_inv P n1 R1) Q1) as Q2.
  pose proof (handles_steps P n2 dt2 _ n3 H2 (reachable_inv P n2 R2)) as [I3 [[S _] _]].
  change (newly (tick dt2 n2) n3 t3 (OResp pid ad serial3 m3)) in N3. pose proof (newly_now _ _ _ _ _ _ _ S N3) as Et.
  destruct (steps_new _ _ _ _ _ _ _ S N3) as (a & b & Sa & Hs & Sb & Eo & _).
  destruct (nstep_resp _ _ _ _ _ _ _ _ _ _ Hs Eo) as (_ & p & Hp & _ & _ & _ & X).
  assert (T : t1 + MIN_HANDSHAKE_INTERVAL <= p_eh_to p).
  { eapply stay_paused; [exact Sa | apply I3 | | exact U2 | | | exact Hp].
    - destruct (reachable_uinv P n2 R2) as [A B]. split; [exact A | exact B].
    - intros t Ht. apply (Hd t). change (newly (tick dt2 n2) n3 t (ODown pid)). apply newly_front with a; [eapply out_steps; exact Sa | | exact Ht].
      destruct (out_steps _ _ _ _ _ Sb) as [l El]. exists (l ++ [(t3, OResp pid ad serial3 m3)]). rewrite El, Eo, <- app_assoc. reflexivity.
    - destruct Q2 as [Q2 Q3]. split; [cbn [tick n_now set_n_now]; unfold MIN_HANDSHAKE_INTERVAL in *; lia | exact Q3]. }
  rewrite (steps_now _ _ _ _ _ Sa) in X. unfold MIN_HANDSHAKE_INTERVAL in *. lia.
Qed.
