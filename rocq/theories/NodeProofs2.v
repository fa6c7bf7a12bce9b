(** Proofs of the theorems about nodes, part 2: sessions *)
From Verif Require Import Base BaseLemmas BufferModel NonceModel NonceProofs MethodModel HandshakeModel HandshakeSpec
  NodeModel NodeSteps NodeWf NodeInv NodeFun NodeFun2 NodeFun3 NodeFun4 NodeSpec NodeProofs.
From Coq Require Import Lia ZifyBool ZifyNat ZifyN Sorted.
Local Open Scope Z_scope.

Definition slot (old : bool) (p : peer) : option psess := if old then p_old p else p_sess p.

(** a session that was not used for sending *)
Definition sle (s s' : psess) : Prop :=
  ss_id s' = ss_id s /\ ss_method s' = ss_method s /\
  match ss_state s, ss_state s' with
  | MCommon c, MCommon c' => s_valid_till c' <= s_valid_till c /\ s_send c' = s_send c
  | MNull c, MNull c' => n_valid c' = true -> n_valid c = true
  | _, _ => False
  end.
Lemma sle_refl : forall s, sle s s.
Proof. intros s. split; [reflexivity|]. split; [reflexivity|]. destruct (ss_state s); [split; [lia | reflexivity] | trivial]. Qed.
Lemma sle_flags : forall s a b, sle s (set_ss_flags a b s).
Proof. intros s a b. exact (sle_refl s). Qed.

(** outputs about sessions *)
Definition quiet_out (n : node) (o : out) : Prop :=
  match o with
  | OSession _ _ _ _ _ _ _ _ _ _ _ | OData _ _ _ _ => False
  | ODeliver pid sid _ => exists p, find_id (n_peers n) pid = Some p /\ p_live (n_now n) sid p
  | _ => True
  end.

Lemma decrypt_sle : forall now s auth nonce st fresh, m_decrypt now (ss_state s) auth nonce = Ok (Some (st, fresh)) -> sle s (set_ss_state st s).
Proof.
  intros now s auth nonce st fresh H. apply m_decrypt_valid in H. destruct H as (_ & _ & H). split; [reflexivity|]. split; [reflexivity|].
  cbn [ss_state set_ss_state]. destruct (ss_state s), st; try contradiction; [|subst; trivial]. destruct H as [-> ->]. split; [lia | reflexivity].
Qed.
Lemma pstep_slot : forall P fl n p p' old s', pstep P fl n p p' -> slot old p' = Some s' -> exists s, slot old p = Some s /\ sle s s'.
Proof.
  intros P fl n p p' old s' H Hs. assert (X : slot old p = Some s' -> exists s, slot old p = Some s /\ sle s s') by (intros E; exists s'; split; [exact E | apply sle_refl]).
  destruct H; unsched; try (apply X; destruct old; exact Hs); destruct old; cbn [slot p_old p_sess set_p_old set_p_sess set_p_next_hs] in *; try (apply X; exact Hs).
  - injection Hs as <-. exists s. split; [exact H | apply sle_flags].
  - injection Hs as <-. exists s. split; [exact H | eapply decrypt_sle; exact H1].
  - discriminate.
  - injection Hs as <-. exists s. split; [exact H | eapply decrypt_sle; exact H1].
  - injection Hs as <-. exists s. split; [exact H | apply sle_flags].
Qed.

(** ** Kinds of steps *)
Definition quiet_step (n n' : node) : Prop :=
  n_now n' = n_now n /\ n_next_sid n' = n_next_sid n /\
  (n_out n' = n_out n \/ exists o, n_out n' = (n_now n, o) :: n_out n /\ quiet_out n o) /\
  (forall q p', find_id (n_peers n') q = Some p' -> forall old s', slot old p' = Some s' ->
     exists p s, find_id (n_peers n) q = Some p /\ p_key p' = p_key p /\ slot old p = Some s /\ sle s s').
Definition send_step (n n' : node) : Prop :=
  exists pid p s old dst, find_id (n_peers n) pid = Some p /\ p_addr p = Some dst /\ slot old p = Some s /\ m_valid (n_now n) (ss_state s) = true /\
  n' = set_n_out ((n_now n, OData pid (ss_id s) (match ss_state s with MCommon c => Some (s_send c) | MNull _ => None end) dst) :: n_out n)
      (set_n_peers (upd_id (n_peers n) pid
         (let st := match ss_state s with MCommon c => MCommon (set_send c (increment_nonce (s_send c))) | MNull c => MNull c end in
          if old then set_p_old (Some (set_ss_state st s)) else set_p_sess (Some (set_ss_state st s)))) n).
Definition session_step (P : params) (n n' : node) : Prop :=
  exists pid p method initiator compat hk key sigma serial src rnd, find_id (n_peers n) pid = Some p /\
  n' = (let sid := n_next_sid n in
       let st := if c_null P method then MNull {| n_initiator := initiator; n_compat := compat; n_valid := true |}
                 else MCommon (common_init (n_now n) initiator compat rnd) in
       set_n_out ((n_now n, OSession pid (p_key p) (p_conf p) initiator serial hk key sigma method sid src) :: n_out n)
         (set_n_peers (upd_id (n_peers n) pid (fun p => set_p_serial serial (set_p_sess (Some (mk_psess sid false false method st)) (superseded (n_now n) method p))))
            (set_n_next_sid (sid + 1)%N n))).

Definition slots_kept (l l' : list peer) : Prop :=
  forall q p', find_id l' q = Some p' -> forall old s', slot old p' = Some s' ->
     exists p s, find_id l q = Some p /\ p_key p' = p_key p /\ slot old p = Some s /\ sle s s'.
Lemma slots_refl : forall l, slots_kept l l.
Proof. intros l q p' Hp old s' Hs. exists p', s'. split; [exact Hp|]. split; [reflexivity|]. split; [exact Hs | apply sle_refl]. Qed.
Lemma slots_upd : forall n pid f p, ids_ok n -> find_id (n_peers n) pid = Some p -> p_id (f p) = p_id p -> p_key (f p) = p_key p ->
  (forall old s', slot old (f p) = Some s' -> exists s, slot old p = Some s /\ sle s s') -> slots_kept (n_peers n) (upd_id (n_peers n) pid f).
Proof.
  intros n pid f p Hi Hf Eid Ekey Hs q p' Hp' old s' Hs'. destruct (find_upd_cases n pid f p q p' Hi Hf Eid Hp') as [[_ Hq] | [-> ->]].
  - exact (slots_refl _ q p' Hq old s' Hs').
  - destruct (Hs old s' Hs') as (s & H1 & H2). exists p, s. split; [exact Hf|]. split; [exact Ekey|]. split; assumption.
Qed.
Lemma slots_same : forall (p p' : peer), p_old p' = p_old p -> p_sess p' = p_sess p -> forall old s', slot old p' = Some s' -> exists s, slot old p = Some s /\ sle s s'.
Proof. intros p p' E1 E2 old s' H. exists s'. split; [destruct old; cbn [slot] in *; congruence | apply sle_refl]. Qed.

Lemma nstep_kind : forall P ev fl n n', nstep P ev fl n n' -> ids_ok n -> quiet_step n n' \/ send_step n n' \/ session_step P n n'.
Proof.
  intros P ev fl n n' H Hi.
  assert (K : n_now n' = n_now n -> n_next_sid n' = n_next_sid n -> (n_out n' = n_out n \/ exists o, n_out n' = (n_now n, o) :: n_out n /\ quiet_out n o) ->
    slots_kept (n_peers n) (n_peers n') -> quiet_step n n').
  { intros A B C D. split; [exact A|]. split; [exact B|]. split; [exact C | exact D]. }
  destruct H; try (left; apply K; [reflexivity | reflexivity | left; reflexivity | apply slots_refl]).
  - left. apply K; [reflexivity | reflexivity | | apply slots_refl]. right. exists o. split; [reflexivity|]. destruct o; try contradiction; exact Logic.I.
  - left. apply K; [reflexivity | reflexivity | | apply slots_refl]. right. eexists. split; [reflexivity|]. exists p. split; assumption.
  - left. apply K; [reflexivity | reflexivity | |]; [right; eexists; split; [reflexivity | exact Logic.I]|]. eapply slots_upd; try eassumption; try reflexivity. apply slots_same; reflexivity.
  - left. apply K; [reflexivity | reflexivity | left; reflexivity |]. destruct (pstep_const _ _ _ _ _ H0) as (E1 & E2 & _).
    eapply slots_upd; try eassumption. intros old s' Hs. eapply pstep_slot; eassumption.
  - left. apply K; [reflexivity | reflexivity | |]; [right; eexists; split; [reflexivity | exact Logic.I]|]. eapply slots_upd; try eassumption; try reflexivity. apply slots_same; reflexivity.
  - right. left. exists pid, p, s, old, dst. split; [exact H|]. split; [exact H0|]. split; [exact H1|]. split; [exact H2 | reflexivity].
  - left. destruct (reset_fn_fields P (set_p_sock None p)) as (E1 & E2 & E3 & _). destruct (reset_fn_const P (set_p_sock None p)) as (F1 & F2 & _).
    apply K; [destruct (is_established p); reflexivity | destruct (is_established p); reflexivity
             | destruct (is_established p); [right; eexists; split; [reflexivity | exact Logic.I] | left; reflexivity]|].
    eapply slots_upd; [exact Hi | exact H | rewrite H0; exact F1 | rewrite H0; exact F2|].
    intros old s' Hs. exfalso. rewrite H0 in Hs. unfold reset_fn in Hs. cbv zeta in Hs. destruct (_ || _ || _)%bool in Hs; destruct old; discriminate.
  - left. apply K; [reflexivity | reflexivity | left; reflexivity |]. intros q p' Hq. apply find_id_filter in Hq. exact (slots_refl _ q p' (proj1 Hq)).
  - left. apply K; [reflexivity | reflexivity | left; reflexivity |]. intros q p' Hq. cbn [n_peers set_n_peers set_n_next_id] in Hq. apply find_id_app in Hq. destruct Hq as [Hq | [-> _]].
    + exact (slots_refl _ q p' Hq).
    + intros old s' Hs. destruct old; discriminate.
  - left. apply K; [reflexivity | reflexivity | left; reflexivity |]. intros q p' Hq old s' Hs. cbn [n_peers set_n_peers] in Hq.
    rewrite find_id_map in Hq by (intros y; destruct (pre_reload_const y) as (c & -> & _); reflexivity).
    destruct (find_id (n_peers n) q) as [y|] eqn:E; [|discriminate]. injection Hq as <-. destruct (pre_reload_const y) as (c & E1 & _). rewrite E1 in *.
    exists y, s'. split; [reflexivity|]. split; [reflexivity|]. split; [destruct old; exact Hs | apply sle_refl].
  - right. right. exists pid, p, method, initiator, compat, hk, key, sigma, serial, src, rnd. split; [exact H0 | reflexivity].
  - left. apply K; [reflexivity | reflexivity | |]; [right; eexists; split; [reflexivity | exact Logic.I]|].
    eapply slots_upd; [exact Hi | exact H0 | | |]; [cbv beta; unsched; reflexivity | cbv beta; unsched; reflexivity|]. cbv beta. unsched. apply slots_same; reflexivity.
Qed.

(** ** The history of sessions *)
Lemma created_mono : forall x l t pid key m sid, created l t pid key m sid -> created (x :: l) t pid key m sid.
Proof. intros x l t pid key m sid (a & b & c & d & e & f & g & H). exists a, b, c, d, e, f, g. right. exact H. Qed.
Lemma created_quiet : forall n o t1 l t pid key m sid, quiet_out n o -> created ((t1, o) :: l) t pid key m sid -> created l t pid key m sid.
Proof.
  intros n o t1 l t pid key m sid Hq (a & b & c & d & e & f & g & [H | H]); [|exists a, b, c, d, e, f, g; exact H].
  injection H as _ ->. contradiction.
Qed.
Lemma created_data : forall a1 a2 a3 a4 t1 l t pid key m sid, created ((t1, OData a1 a2 a3 a4) :: l) t pid key m sid -> created l t pid key m sid.
Proof.
  intros a1 a2 a3 a4 t1 l t pid key m sid (a & b & c & d & e & f & g & [H | H]); [discriminate|exists a, b, c, d, e, f, g; exact H].
Qed.
Lemma created_ids : forall l t pid key m sid, created l t pid key m sid -> In sid (session_ids l).
Proof.
  intros l t pid key m sid (a & b & c & d & e & f & g & H). induction l as [|[t1 o] l IH]; [destruct H|]. destruct H as [H | H].
  - injection H as -> ->. left. reflexivity.
  - specialize (IH H). destruct o; cbn [session_ids]; try exact IH. right. exact IH.
Qed.
Lemma quiet_ids : forall n o t l, quiet_out n o -> session_ids ((t, o) :: l) = session_ids l /\ sent_nonces ((t, o) :: l) = sent_nonces l.
Proof. intros n o t l H. destruct o; try (split; reflexivity); contradiction. Qed.

Definition good_state (P : params) (s : psess) (t : Z) : Prop :=
  match ss_state s with
  | MCommon c => c_null P (ss_method s) = false /\ s_valid_till c <= t + KEY_VALID /\ nonce_wf (s_send c) /\ nval (s_send c) < 2 ^ 48 - 2 ^ 32 + 2
  | MNull _ => c_null P (ss_method s) = true
  end.
Definition ends_by (s : psess) (t : Z) : Prop :=
  match ss_state s with MCommon c => s_valid_till c <= t | MNull c => n_valid c = false end.
Record sinv (P : params) (n : node) : Prop := mk_sinv {
  si_time : forall t o, In (t, o) (n_out n) -> t <= n_now n;
  si_made : forall q p old s, find_id (n_peers n) q = Some p -> slot old p = Some s ->
    exists t, created (n_out n) t q (p_key p) (ss_method s) (ss_id s) /\ good_state P s t;
  si_ids : NoDup (session_ids (n_out n));
  si_next : forall sid, In sid (session_ids (n_out n)) -> (sid < n_next_sid n)%N;
  si_uniq : forall q p old s q' p' old' s', find_id (n_peers n) q = Some p -> slot old p = Some s ->
    find_id (n_peers n) q' = Some p' -> slot old' p' = Some s' -> ss_id s = ss_id s' -> q = q' /\ old = old';
  si_nonce : forall q p old s c, find_id (n_peers n) q = Some p -> slot old p = Some s -> ss_state s = MCommon c ->
    forall nonce, In (ss_id s, nonce) (sent_nonces (n_out n)) -> nval nonce < nval (s_send c);
  si_nonces : NoDup (sent_nonces (n_out n));
  si_sent : forall sid nonce, In (sid, nonce) (sent_nonces (n_out n)) -> (sid < n_next_sid n)%N;
  si_used : forall t o pid sid, In (t, o) (n_out n) -> uses o pid sid ->
    exists t0 key m, created (n_out n) t0 pid key m sid /\ t0 <= t /\ (c_null P m = false -> t < t0 + KEY_VALID);
  si_super : forall q p old s t1 key m sid', find_id (n_peers n) q = Some p -> slot old p = Some s ->
    created (n_out n) t1 q key m sid' -> (ss_id s < sid')%N -> old = true /\ ends_by s (t1 + KEY_VALID_OLD);
  si_end : forall t o pid sid t1 key m sid', In (t, o) (n_out n) -> uses o pid sid ->
    created (n_out n) t1 pid key m sid' -> (sid < sid')%N -> t < t1 + KEY_VALID_OLD
}.

Lemma sle_good : forall P s s' t, sle s s' -> good_state P s t -> good_state P s' t.
Proof.
  intros P s s' t (E1 & E2 & H) G. unfold good_state in *. rewrite E2. destruct (ss_state s), (ss_state s'); try contradiction; [|exact G].
  destruct H as [H1 H2]. rewrite H2. destruct G as (G1 & G2 & G3 & G4). repeat split; try assumption; try apply G3; lia.
Qed.
Lemma sle_ends : forall s s' t, sle s s' -> ends_by s t -> ends_by s' t.
Proof.
  intros s s' t (E1 & E2 & H) G. unfold ends_by in *. destruct (ss_state s), (ss_state s'); try contradiction; [lia|].
  destruct (n_valid s1); [|reflexivity]. rewrite (H eq_refl) in G. discriminate.
Qed.

Lemma sinv_quiet : forall P n n', quiet_step n n' -> sinv P n -> sinv P n'.
Proof.
  intros P n n' (Enow & Esid & Eout & Hsl) [I1 I2 I3 I4 I5 I6 I7 I8 I9 I10 I11].
  assert (Hids : session_ids (n_out n') = session_ids (n_out n) /\ sent_nonces (n_out n') = sent_nonces (n_out n)).
  { destruct Eout as [-> | (o & -> & Hq)]; [split; reflexivity | exact (quiet_ids _ _ _ _ Hq)]. }
  destruct Hids as [Hids Hnon].
  assert (Hcr : forall t pid key m sid, created (n_out n') t pid key m sid <-> created (n_out n) t pid key m sid).
  { intros t pid key m sid. destruct Eout as [-> | (o & -> & Hq)]; [tauto|]. split; [eapply created_quiet; exact Hq | apply created_mono]. }
  assert (Huse : forall t o pid sid, In (t, o) (n_out n') -> uses o pid sid -> In (t, o) (n_out n) \/
    t = n_now n /\ exists p, find_id (n_peers n) pid = Some p /\ p_live (n_now n) sid p).
  { intros t o pid sid Hin Hu. destruct Eout as [E | (o1 & E & Hq)]; rewrite E in Hin; [left; exact Hin|]. destruct Hin as [Hin | Hin]; [|left; exact Hin].
    injection Hin as <- <-. right. split; [reflexivity|]. destruct Hu as [(nonce & dst & ->) | (src & ->)]; [contradiction | exact Hq]. }
  assert (Hlive : forall pid p sid, find_id (n_peers n) pid = Some p -> p_live (n_now n) sid p ->
    exists old s, slot old p = Some s /\ ss_id s = sid /\ match ss_state s with MCommon c => n_now n < s_valid_till c | MNull c => n_valid c = true end).
  { intros pid p sid Hp (s & [Hs | Hs] & X); [exists true, s | exists false, s]; split; assumption. }
  constructor.
  - intros t o Hin. rewrite Enow. destruct Eout as [E | (o1 & E & _)]; rewrite E in Hin; [exact (I1 t o Hin)|]. destruct Hin as [Hin | Hin]; [injection Hin as <- _; lia | exact (I1 t o Hin)].
  - intros q p' old s' Hp' Hs'. destruct (Hsl q p' Hp' old s' Hs') as (p & s & Hp & Ek & Hs & Hle). destruct (I2 q p old s Hp Hs) as (t & Hc & Hg).
    exists t. rewrite Hcr, Ek. destruct Hle as (E1 & E2 & E3). split; [rewrite E1, E2; exact Hc|]. eapply sle_good; [split; [exact E1 | split; [exact E2 | exact E3]] | exact Hg].
  - rewrite Hids. exact I3.
  - rewrite Hids, Esid. exact I4.
  - intros q p1 old s1 q' p2 old' s2 H1 S1 H2 S2 E. destruct (Hsl q p1 H1 old s1 S1) as (a & b & A1 & _ & A2 & (A3 & _)).
    destruct (Hsl q' p2 H2 old' s2 S2) as (c & d & B1 & _ & B2 & (B3 & _)). eapply I5; try eassumption. congruence.
  - intros q p' old s' c Hp' Hs' Ec nonce Hin. destruct (Hsl q p' Hp' old s' Hs') as (p & s & Hp & _ & Hs & (E1 & _ & E3)). rewrite Ec in E3.
    destruct (ss_state s) as [c0|] eqn:Es; [|contradiction]. destruct E3 as [_ ->]. rewrite Hnon, E1 in Hin. exact (I6 q p old s c0 Hp Hs Es nonce Hin).
  - rewrite Hnon. exact I7.
  - rewrite Hnon, Esid. exact I8.
  - intros t o pid sid Hin Hu. destruct (Huse t o pid sid Hin Hu) as [Hin0 | (-> & p & Hp & Hl)].
    + destruct (I9 t o pid sid Hin0 Hu) as (t0 & key & m & Hc & X). exists t0, key, m. rewrite Hcr. split; [exact Hc | exact X].
    + destruct (Hlive pid p sid Hp Hl) as (old & s & Hs & <- & Hv). destruct (I2 pid p old s Hp Hs) as (t0 & Hc & Hg). exists t0, (p_key p), (ss_method s).
      rewrite Hcr. split; [exact Hc|]. split; [destruct Hc as (a1 & a2 & a3 & a4 & a5 & a6 & a7 & Hc); exact (I1 _ _ Hc)|].
      intros Hn. unfold good_state in Hg. destruct (ss_state s) as [c|c]; [|congruence]. lia.
  - intros q p' old s' t1 key m sid' Hp' Hs' Hc Hlt. rewrite Hcr in Hc. destruct (Hsl q p' Hp' old s' Hs') as (p & s & Hp & _ & Hs & Hle).
    destruct (I10 q p old s t1 key m sid' Hp Hs Hc) as [X Y]; [destruct Hle as [E1 _]; rewrite <- E1; exact Hlt|]. split; [exact X | eapply sle_ends; eassumption].
  - intros t o pid sid t1 key m sid' Hin Hu Hc Hlt. rewrite Hcr in Hc. destruct (Huse t o pid sid Hin Hu) as [Hin0 | (-> & p & Hp & Hl)].
    + exact (I11 t o pid sid t1 key m sid' Hin0 Hu Hc Hlt).
    + destruct (Hlive pid p sid Hp Hl) as (old & s & Hs & <- & Hv). destruct (I10 pid p old s t1 key m sid' Hp Hs Hc Hlt) as [_ He]. unfold ends_by in He.
      destruct (ss_state s) as [c|c]; [lia | congruence].
Qed.

Lemma sinv_send : forall P n n', send_step n n' -> ids_ok n -> sinv P n -> sinv P n'.
Proof.
  intros P n n' (pid & p & s & old & dst & Hf & Ha & Hs & Hv & ->) Hi [I1 I2 I3 I4 I5 I6 I7 I8 I9 I10 I11].
  destruct (I2 pid p old s Hf Hs) as (t0 & Hcr0 & Hg0).
  assert (Ht0 : t0 <= n_now n) by (destruct Hcr0 as (a1 & a2 & a3 & a4 & a5 & a6 & a7 & Hc); exact (I1 _ _ Hc)).
  pose (o := OData pid (ss_id s) (match ss_state s with MCommon c => Some (s_send c) | MNull _ => None end) dst).
  pose (s1 := set_ss_state match ss_state s with MCommon c => MCommon (set_send c (increment_nonce (s_send c))) | MNull c => MNull c end s).
  pose (f := if old then set_p_old (Some s1) else set_p_sess (Some s1)).
  assert (Hslots : forall q p' old' s', find_id (upd_id (n_peers n) pid f) q = Some p' -> slot old' p' = Some s' ->
     exists p0 s0, find_id (n_peers n) q = Some p0 /\ p_key p' = p_key p0 /\ slot old' p0 = Some s0 /\ ss_id s' = ss_id s0 /\
       (s' = s0 \/ (q = pid /\ old' = old /\ s0 = s /\ s' = s1))).
  { intros q p' old' s' Hp' Hs'. destruct (find_upd_cases n pid f p q p' Hi Hf ltac:(unfold f; destruct old; reflexivity) Hp') as [[_ Hq] | [-> ->]].
    - exists p', s'. split; [exact Hq|]. split; [reflexivity|]. split; [exact Hs'|]. split; [reflexivity | left; reflexivity].
    - exists p. unfold f in *. destruct old, old'; cbn [slot p_old p_sess set_p_old set_p_sess] in *; try (injection Hs' as <-; exists s); try (exists s'; repeat (split; [assumption || reflexivity|]); left; reflexivity);
      (split; [exact Hf|]); (split; [reflexivity|]); (split; [exact Hs|]); (split; [reflexivity|]); right; repeat split. }
  assert (Hcr : forall t q key m sid, created ((n_now n, o) :: n_out n) t q key m sid <-> created (n_out n) t q key m sid).
  { intros t q key m sid. split; [apply created_data | apply created_mono]. }
  assert (Hids : session_ids ((n_now n, o) :: n_out n) = session_ids (n_out n)) by reflexivity.
  assert (Hgood : forall t, good_state P s t -> good_state P s1 t).
  { intros t. unfold good_state, s1. cbn [ss_state set_ss_state ss_method]. destruct (ss_state s) as [c|c]; [|trivial]. cbn [s_valid_till set_send s_send].
    intros (G1 & G2 & G3 & G4). destruct (increment_nonce_spec _ G3) as [X1 X2]. pose proof (is_valid_nval _ _ G3 Hv). pose proof (nval_range _ G3).
    split; [exact G1|]. split; [exact G2|]. split; [exact X1|]. rewrite X2, Z.mod_small; lia. }
  assert (Hends : forall t, ends_by s t -> ends_by s1 t).
  { intros t. unfold ends_by, s1. cbn [ss_state set_ss_state]. destruct (ss_state s) as [c|c]; trivial. }
  assert (Hnon : forall sid nonce, In (sid, nonce) (sent_nonces ((n_now n, o) :: n_out n)) ->
    In (sid, nonce) (sent_nonces (n_out n)) \/ (sid = ss_id s /\ exists c, ss_state s = MCommon c /\ nonce = s_send c)).
  { intros sid nonce Hin. unfold o in Hin. cbn [sent_nonces] in Hin. destruct (ss_state s) as [c|c]; [|left; exact Hin].
    destruct Hin as [Hin | Hin]; [|left; exact Hin]. injection Hin as <- <-. right. split; [reflexivity|]. exists c. split; reflexivity. }
  assert (Hlt : match ss_state s with MCommon c => nonce_wf (s_send c) /\ nval (s_send c) < nval (increment_nonce (s_send c)) | MNull _ => True end).
  { unfold good_state in Hg0. destruct (ss_state s) as [c|c]; [|exact Logic.I]. destruct Hg0 as (_ & _ & G3 & _). destruct (increment_nonce_spec _ G3) as [X1 X2].
    pose proof (is_valid_nval _ _ G3 Hv). pose proof (nval_range _ G3). split; [exact G3|]. rewrite X2, Z.mod_small; lia. }
  fold s1. fold f. fold o.
  constructor; cbn [n_out n_peers n_now n_next_sid set_n_out set_n_peers].
  - intros t o1 [Hin | Hin]; [injection Hin as <- _; lia | exact (I1 t o1 Hin)].
  - intros q p' old' s' Hp' Hs'. destruct (Hslots q p' old' s' Hp' Hs') as (p0 & s0 & Hp0 & Ek & Hs0 & Eid & Hcase). destruct (I2 q p0 old' s0 Hp0 Hs0) as (t & Hc & Hg).
    exists t. rewrite Hcr, Ek. destruct Hcase as [-> | (-> & -> & -> & ->)]; [split; assumption|]. split; [exact Hc | exact (Hgood t Hg)].
  - rewrite Hids. exact I3.
  - rewrite Hids. exact I4.
  - intros q p1 old1 q1 q' p2 old2 q2 H1 S1 H2 S2 E. destruct (Hslots q p1 old1 q1 H1 S1) as (a & b & A1 & _ & A2 & A3 & _).
    destruct (Hslots q' p2 old2 q2 H2 S2) as (c & d & B1 & _ & B2 & B3 & _). eapply I5; try eassumption. congruence.
  - intros q p' old' s' c Hp' Hs' Ec nonce Hin. destruct (Hslots q p' old' s' Hp' Hs') as (p0 & s0 & Hp0 & Ek & Hs0 & Eid & Hcase).
    assert (Hold : forall c0, ss_state s0 = MCommon c0 -> In (ss_id s', nonce) (sent_nonces (n_out n)) -> nval nonce < nval (s_send c0)).
    { intros c0 Es0 Hin0. rewrite Eid in Hin0. exact (I6 q p0 old' s0 c0 Hp0 Hs0 Es0 nonce Hin0). }
    destruct Hcase as [-> | (-> & -> & -> & ->)].
    + destruct (Hnon _ _ Hin) as [Hin0 | (Esid & _)]; [exact (Hold c Ec Hin0)|].
      destruct (I5 q p0 old' s0 pid p old s Hp0 Hs0 Hf Hs Esid) as [-> ->]. rewrite Hf in Hp0. injection Hp0 as <-. rewrite Hs in Hs0. injection Hs0 as <-.
      (* the same slot has been written *)
      destruct (find_upd_cases n pid f p pid p' Hi Hf ltac:(unfold f; destruct old; reflexivity) Hp') as [[X _] | [_ ->]]; [congruence|].
      assert (X : slot old (f p) = Some s1) by (unfold f; destruct old; reflexivity). rewrite X in Hs'. injection Hs' as Hs'.
      assert (Y : ss_state s1 = ss_state s) by (rewrite Hs'; reflexivity). unfold s1 in Y. cbn [ss_state set_ss_state] in Y. rewrite Ec in Y, Hlt.
      injection Y as Y. apply (f_equal s_send) in Y. cbn [s_send set_send] in Y. rewrite Y in Hlt. lia.
    + unfold s1 in Ec. cbn [ss_state set_ss_state] in Ec. destruct (ss_state s) as [c0|c0] eqn:Es; [|discriminate]. injection Ec as <-. cbn [s_send set_send].
      destruct Hlt as [_ Hlt]. destruct (Hnon _ _ Hin) as [Hin0 | (_ & c1 & E1 & ->)].
      * specialize (Hold c0 eq_refl Hin0). lia.
      * injection E1 as <-. exact Hlt.
  - unfold o. cbn [sent_nonces]. destruct (ss_state s) as [c|c] eqn:Es; [|exact I7]. constructor; [|exact I7].
    intros Hin. pose proof (I6 pid p old s c Hf Hs Es _ Hin). lia.
  - intros sid nonce Hin. destruct (Hnon _ _ Hin) as [Hin0 | (-> & _)]; [exact (I8 _ _ Hin0)|]. apply I4. eapply created_ids. exact Hcr0.
  - intros t o1 q sid Hin Hu. destruct Hin as [Hin | Hin].
    + injection Hin as <- <-. destruct Hu as [(nonce & d & Hu) | (src & Hu)]; [|discriminate]. injection Hu as <- <- _ _.
      exists t0, (p_key p), (ss_method s). rewrite Hcr. split; [exact Hcr0|]. split; [exact Ht0|]. intros Hn. unfold good_state in Hg0.
      destruct (ss_state s) as [c|c]; [|congruence]. pose proof (common_valid_till _ _ Hv). lia.
    + destruct (I9 t o1 q sid Hin Hu) as (t1 & key & m & Hc & X). exists t1, key, m. rewrite Hcr. split; assumption.
  - intros q p' old' s' t1 key m sid' Hp' Hs' Hc Hl. rewrite Hcr in Hc. destruct (Hslots q p' old' s' Hp' Hs') as (p0 & s0 & Hp0 & Ek & Hs0 & Eid & Hcase).
    rewrite Eid in Hl. destruct (I10 q p0 old' s0 t1 key m sid' Hp0 Hs0 Hc Hl) as [X Y]. split; [exact X|].
    destruct Hcase as [-> | (-> & -> & -> & ->)]; [exact Y | exact (Hends _ Y)].
  - intros t o1 q sid t1 key m sid' Hin Hu Hc Hl. rewrite Hcr in Hc. destruct Hin as [Hin | Hin]; [|exact (I11 t o1 q sid t1 key m sid' Hin Hu Hc Hl)].
    injection Hin as <- <-. destruct Hu as [(nonce & d & Hu) | (src & Hu)]; [|discriminate]. injection Hu as <- <- _ _.
    destruct (I10 pid p old s t1 key m sid' Hf Hs Hc Hl) as [_ He]. unfold ends_by in He. destruct (ss_state s) as [c|c]; [pose proof (common_valid_till _ _ Hv); lia|].
    cbn [m_valid] in Hv. congruence.
Qed.

Lemma superseded_slot : forall now method p s', p_old (superseded now method p) = Some s' ->
  exists old s, slot old p = Some s /\ sle s s' /\ ends_by s' (now + KEY_VALID_OLD).
Proof.
  intros now method p s' H. unfold superseded in H. cbv zeta in H.
  assert (K : forall o, sle o (set_ss_state (m_superseded now (ss_state o)) o) /\ ends_by (set_ss_state (m_superseded now (ss_state o)) o) (now + KEY_VALID_OLD)).
  { intros o. unfold sle, ends_by. cbn [ss_id ss_method ss_state set_ss_state]. destruct (ss_state o) as [c|c]; cbn [m_superseded].
    - unfold common_superseded. cbv zeta. destruct (Z.ltb_spec (now + KEY_VALID_OLD) (s_valid_till c)); cbn [s_valid_till s_send]; repeat split; lia.
    - cbn [n_valid]. split; [repeat split; discriminate | reflexivity]. }
  destruct (_ && _)%bool; cbn [p_old set_p_old] in H.
  - destruct (p_sess p) as [o|] eqn:E; [|cbn in H; discriminate]. destruct (bytes_eqb _ _); [|discriminate]. cbn [p_old set_p_old] in H. injection H as <-.
    exists false, o. split; [exact E | apply K].
  - destruct (p_old p) as [o|] eqn:E; [|congruence]. destruct (bytes_eqb _ _); [|discriminate]. cbn [p_old set_p_old] in H. injection H as <-.
    exists true, o. split; [exact E | apply K].
Qed.

Lemma sinv_session : forall P n n', session_step P n n' -> ids_ok n -> sinv P n -> sinv P n'.
Proof.
  intros P n n' (pid & p & method & initiator & compat & hk & key & sigma & serial & src & rnd & Hf & ->) Hi [I1 I2 I3 I4 I5 I6 I7 I8 I9 I10 I11].
  cbv zeta.
  pose (o := OSession pid (p_key p) (p_conf p) initiator serial hk key sigma method (n_next_sid n) src).
  pose (s1 := mk_psess (n_next_sid n) false false method (if c_null P method then MNull {| n_initiator := initiator; n_compat := compat; n_valid := true |}
                 else MCommon (common_init (n_now n) initiator compat rnd))).
  pose (f := fun p => set_p_serial serial (set_p_sess (Some s1) (superseded (n_now n) method p))).
  assert (Hlow : forall q p old s, find_id (n_peers n) q = Some p -> slot old p = Some s -> (ss_id s < n_next_sid n)%N).
  { intros q p0 old s Hp Hs. destruct (I2 q p0 old s Hp Hs) as (t & Hc & _). apply I4. eapply created_ids. exact Hc. }
  assert (Hfid : p_id (f p) = p_id p) by (unfold f; unsup; reflexivity).
  (* each session is the new one or one from before *)
  assert (Hslots : forall q p' old' s', find_id (upd_id (n_peers n) pid f) q = Some p' -> slot old' p' = Some s' ->
     (q = pid /\ old' = false /\ s' = s1 /\ p_key p' = p_key p) \/
     (exists old0 p0 s0, find_id (n_peers n) q = Some p0 /\ p_key p' = p_key p0 /\ slot old0 p0 = Some s0 /\ sle s0 s' /\
       ((q <> pid /\ old0 = old' /\ s' = s0) \/ (q = pid /\ old' = true /\ ends_by s' (n_now n + KEY_VALID_OLD))))).
  { intros q p' old' s' Hp' Hs'. destruct (find_upd_cases n pid f p q p' Hi Hf Hfid Hp') as [[Hne Hq] | [-> ->]].
    - right. exists old', p', s'. repeat (split; [assumption || reflexivity|]). split; [apply sle_refl|]. left. repeat split. exact Hne.
    - assert (Ek : p_key (f p) = p_key p) by (unfold f; unsup; reflexivity). destruct old'.
      + right. assert (Hs0 : p_old (superseded (n_now n) method p) = Some s') by exact Hs'. destruct (superseded_slot _ _ _ _ Hs0) as (old0 & s0 & A & B & C).
        exists old0, p, s0. repeat (split; [assumption|]). right. repeat split. exact C.
      + left. assert (X : Some s1 = Some s') by exact Hs'. injection X as <-. repeat split. exact Ek. }
  assert (Hcr : forall t q k m sid, created ((n_now n, o) :: n_out n) t q k m sid ->
     created (n_out n) t q k m sid \/ (t = n_now n /\ q = pid /\ k = p_key p /\ m = method /\ sid = n_next_sid n)).
  { intros t q k m sid (a & b & c & d & e & f0 & g & [H | H]).
    - unfold o in H. injection H as <- <- <- _ _ _ _ _ _ <- <- _. right. repeat split.
    - left. exists a, b, c, d, e, f0, g. exact H. }
  fold s1. fold f. fold o.
  constructor; cbn [n_out n_peers n_now n_next_sid set_n_out set_n_peers set_n_next_sid].
  - intros t o1 [Hin | Hin]; [injection Hin as <- _; lia | exact (I1 t o1 Hin)].
  - intros q p' old' s' Hp' Hs'. destruct (Hslots q p' old' s' Hp' Hs') as [(-> & -> & -> & Ek) | (old0 & p0 & s0 & Hp0 & Ek & Hs0 & Hle & _)].
    + exists (n_now n). rewrite Ek. split; [exists (p_conf p), initiator, serial, hk, key, sigma, src; left; reflexivity|].
      unfold good_state, s1. cbn [ss_state ss_method]. destruct (c_null P method) eqn:En; [reflexivity|]. split; [reflexivity|].
      destruct (init_send_wf (n_now n) initiator compat rnd) as [W1 W2]. split; [cbn; lia|]. split; [exact W1|]. rewrite W2. destruct initiator; lia.
    + destruct (I2 q p0 old0 s0 Hp0 Hs0) as (t & Hc & Hg). exists t. rewrite Ek. pose proof Hle as (E1 & E2 & _). rewrite E1, E2.
      split; [apply created_mono; exact Hc | eapply sle_good; eassumption].
  - unfold o. cbn [session_ids]. constructor; [|exact I3]. intros Hin. apply I4 in Hin. lia.
  - unfold o. cbn [session_ids]. intros sid [<- | Hin]; [lia|]. apply I4 in Hin. lia.
  - intros q p1 old1 q1 q' p2 old2 q2 H1 S1 H2 S2 E.
    destruct (Hslots q p1 old1 q1 H1 S1) as [(-> & -> & -> & _) | (o0 & p0 & s0 & A1 & _ & A2 & (A3 & _) & A4)];
    destruct (Hslots q' p2 old2 q2 H2 S2) as [(-> & -> & -> & _) | (o0' & p0' & s0' & B1 & _ & B2 & (B3 & _) & B4)].
    + split; reflexivity.
    + exfalso. pose proof (Hlow _ _ _ _ B1 B2). cbn [ss_id s1] in E. lia.
    + exfalso. pose proof (Hlow _ _ _ _ A1 A2). cbn [ss_id s1] in E. lia.
    + destruct (I5 q p0 o0 s0 q' p0' o0' s0' A1 A2 B1 B2 ltac:(congruence)) as [-> ->]. split; [reflexivity|].
      destruct A4 as [(X1 & <- & _) | (X1 & -> & _)], B4 as [(Y1 & <- & _) | (Y1 & -> & _)]; congruence.
  - intros q p' old' s' c Hp' Hs' Ec nonce Hin. change (sent_nonces ((n_now n, o) :: n_out n)) with (sent_nonces (n_out n)) in Hin.
    destruct (Hslots q p' old' s' Hp' Hs') as [(-> & -> & -> & Ek) | (old0 & p0 & s0 & Hp0 & Ek & Hs0 & (E1 & _ & E3) & _)].
    + exfalso. apply I8 in Hin. cbn [ss_id s1] in Hin. lia.
    + rewrite Ec in E3. destruct (ss_state s0) as [c0|] eqn:Es; [|contradiction]. destruct E3 as [_ ->]. rewrite E1 in Hin. exact (I6 q p0 old0 s0 c0 Hp0 Hs0 Es nonce Hin).
  - exact I7.
  - intros sid nonce Hin. change (sent_nonces ((n_now n, o) :: n_out n)) with (sent_nonces (n_out n)) in Hin. apply I8 in Hin. lia.
  - intros t o1 q sid Hin Hu. destruct Hin as [Hin | Hin].
    + injection Hin as <- <-. destruct Hu as [(nonce & d & Hu) | (s & Hu)]; discriminate.
    + destruct (I9 t o1 q sid Hin Hu) as (t1 & k & m & Hc & X). exists t1, k, m. split; [apply created_mono; exact Hc | exact X].
  - intros q p' old' s' t1 k m sid' Hp' Hs' Hc Hl.
    destruct (Hslots q p' old' s' Hp' Hs') as [(-> & -> & -> & Ek) | (old0 & p0 & s0 & Hp0 & Ek & Hs0 & Hle & Hcase)].
    + exfalso. cbn [ss_id s1] in Hl. destruct (Hcr _ _ _ _ _ Hc) as [Hc0 | (_ & _ & _ & _ & ->)]; [|lia]. apply created_ids in Hc0. apply I4 in Hc0. lia.
    + destruct (Hcr _ _ _ _ _ Hc) as [Hc0 | (-> & Eq & _ & _ & ->)].
      * pose proof Hle as (E1 & _). rewrite E1 in Hl. destruct (I10 q p0 old0 s0 t1 k m sid' Hp0 Hs0 Hc0 Hl) as [X Y].
        destruct Hcase as [(_ & <- & ->) | (_ & -> & _)]; (split; [assumption || reflexivity|]); eapply sle_ends; eassumption.
      * destruct Hcase as [(X & _) | (_ & -> & X)]; [congruence|]. split; [reflexivity | exact X].
  - intros t o1 q sid t1 k m sid' Hin Hu Hc Hl. destruct Hin as [Hin | Hin].
    + injection Hin as <- <-. destruct Hu as [(nonce & d & Hu) | (s & Hu)]; discriminate.
    + destruct (Hcr _ _ _ _ _ Hc) as [Hc0 | (-> & -> & _ & _ & ->)]; [exact (I11 t o1 q sid t1 k m sid' Hin Hu Hc0 Hl)|].
      apply I1 in Hin. unfold KEY_VALID_OLD. lia.
Qed.

Lemma reachable_sinv : forall P n, reachable P n -> sinv P n.
Proof.
  intros P n. apply reachable_ind.
  - intros now orc. constructor; cbn; try (intros; contradiction); try (intros; discriminate); try constructor.
  - intros t m I Ht [I1 I2 I3 I4 I5 I6 I7 I8 I9 I10 I11]. constructor; try assumption. intros t1 o Hin. cbn [n_now set_n_now]. specialize (I1 t1 o Hin). lia.
  - intros ev fl a b H I S. pose proof (wf_ids _ (i_wf _ _ I)) as Hi. destruct (nstep_kind _ _ _ _ _ H Hi) as [X | [X | X]];
      [eapply sinv_quiet | eapply sinv_send | eapply sinv_session]; eassumption.
Qed.
