(** Addresses that belong to a peer: no step but claiming an address gives such an
    address to another peer *)
From Verif Require Import Base BufferModel NonceModel MethodModel HandshakeModel NodeModel NodeSteps NodeWf NodeInv.
From Coq Require Import Lia ZifyBool ZifyNat ZifyN.
Local Open Scope Z_scope.

(** nobody uses the address [a] that belongs to another peer *)
Definition safe (a : addr) (n : node) : Prop := forall i q j p, find_id (n_peers n) i = Some q -> is_enabled q = true -> owns_address q a = true ->
  find_id (n_peers n) j = Some p -> p_addr p = Some a -> j = i.
Definition sf (n n' : node) : Prop := forall a, safe a n -> safe a n'.

Lemma sf_refl : forall n, sf n n.
Proof. intros n a H. exact H. Qed.
Lemma sf_trans : forall n n1 n2, sf n n1 -> sf n1 n2 -> sf n n2.
Proof. intros n n1 n2 H1 H2 a H. apply H2. apply H1. exact H. Qed.

Lemma owns_static : forall p p' a, p_floating p' = p_floating p -> map pstatic (p_remotes p') = map pstatic (p_remotes p) ->
  owns_address p' a = owns_address p a.
Proof.
  intros p p' a Ef Er. unfold owns_address, is_floating. rewrite Ef.
  assert (E1 : (match p_remotes p' with [] => true | _ => false end) = (match p_remotes p with [] => true | _ => false end)).
  { destruct (p_remotes p'), (p_remotes p); try reflexivity; discriminate. }
  rewrite E1. clear E1. destruct (_ || _)%bool; [reflexivity|]. revert Er. generalize (p_remotes p). induction (p_remotes p') as [|r l IH]; intros [|s m] Er; try discriminate; [reflexivity|].
  cbn [map] in Er. assert (X : pstatic r = pstatic s) by congruence. assert (Y : map pstatic l = map pstatic m) by congruence.
  cbn [existsb]. rewrite (IH m Y). unfold pstatic in X. injection X as -> ->. reflexivity.
Qed.

Section Own.
Variables (P : params) (ev : event).
Notation St := (steps P ev).

Lemma own_nstep : forall fl n n' q p' a, nstep P ev fl n n' -> f_rl fl = false -> ids_ok n ->
  find_id (n_peers n') q = Some p' -> is_enabled p' = true -> owns_address p' a = true ->
  exists p, find_id (n_peers n) q = Some p /\ is_enabled p = true /\ owns_address p a = true.
Proof.
  intros fl n n' q p' a H Hrl Hi Hq He Ho. destruct (nstep_find _ _ _ _ _ _ _ H Hi Hq) as [(p & Hp & Hc) | (_ & _ & _ & c & st & -> & _ & Hst)].
  - exists p. split; [exact Hp|]. destruct (pchange_static _ _ _ _ _ _ Hc) as (_ & _ & _ & _ & E5 & _ & _ & E8 & _ & E10).
    rewrite <- (conf_enabled p p' (E10 Hrl)), <- (owns_static p p' a E5 E8). split; assumption.
  - exfalso. destruct Hst as [[X _] | [_ E]]; [congruence|]. rewrite E in Ho. discriminate.
Qed.
Lemma own_steps : forall fl n n' q p' a, St fl n n' -> f_rl fl = false -> inv0 P n ->
  find_id (n_peers n') q = Some p' -> is_enabled p' = true -> owns_address p' a = true ->
  exists p, find_id (n_peers n) q = Some p /\ is_enabled p = true /\ owns_address p a = true.
Proof.
  intros fl n n' q p' a H Hrl. revert q p'. induction H as [|n n1 n2 Hs Hrest IH]; intros q p' I Hq He Ho; [exists p'; repeat split; assumption|].
  destruct (IH q p' (inv0_nstep _ _ _ _ _ Hs I) Hq He Ho) as (p1 & Hp1 & He1 & Ho1).
  eapply own_nstep; [exact Hs | exact Hrl | exact (wf_ids _ (i_wf _ _ I)) | exact Hp1 | exact He1 | exact Ho1].
Qed.

Lemma addr_nstep : forall fl n n' q p' a, nstep P ev fl n n' -> f_cl fl = false -> ids_ok n ->
  find_id (n_peers n') q = Some p' -> p_addr p' = Some a -> exists p, find_id (n_peers n) q = Some p /\ p_addr p = Some a.
Proof.
  intros fl n n' q p' a H Hcl Hi Hq Ha. destruct (nstep_find _ _ _ _ _ _ _ H Hi Hq) as [(p & Hp & Hc) | (_ & _ & _ & c & st & -> & _)]; [|discriminate].
  exists p. split; [exact Hp|]. destruct Hc; try exact Ha.
  - destruct (pstep_addr _ _ _ _ _ H0) as [E | [[E _] | (b & E & _)]]; congruence.
  - destruct old; exact Ha.
  - destruct (reset_fn_fields P (set_p_sock None p)) as (_ & _ & _ & _ & _ & _ & _ & _ & _ & E & _). congruence.
  - destruct (pre_reload_const p) as (c & E & _). rewrite E in Ha. exact Ha.
  - cbv zeta in Ha. clear Hq. unsup. exact Ha.
  - unsched. exact Ha.
Qed.
Lemma addr_steps : forall fl n n' q p' a, St fl n n' -> f_cl fl = false -> inv0 P n ->
  find_id (n_peers n') q = Some p' -> p_addr p' = Some a -> exists p, find_id (n_peers n) q = Some p /\ p_addr p = Some a.
Proof.
  intros fl n n' q p' a H Hcl. revert q p'. induction H as [|n n1 n2 Hs Hrest IH]; intros q p' I Hq Ha; [exists p'; split; assumption|].
  destruct (IH q p' (inv0_nstep _ _ _ _ _ Hs I) Hq Ha) as (p1 & Hp1 & Ha1).
  eapply addr_nstep; [exact Hs | exact Hcl | exact (wf_ids _ (i_wf _ _ I)) | exact Hp1 | exact Ha1].
Qed.

Lemma sf_steps : forall fl n n', St fl n n' -> f_cl fl = false -> f_rl fl = false -> inv0 P n -> sf n n'.
Proof.
  intros fl n n' H Hcl Hrl I a Hs i q j p Hq He Ho Hp Ha.
  destruct (own_steps _ _ _ _ _ _ H Hrl I Hq He Ho) as (q0 & Hq0 & He0 & Ho0).
  destruct (addr_steps _ _ _ _ _ _ H Hcl I Hp Ha) as (p0 & Hp0 & Ha0).
  exact (Hs i q0 j p0 Hq0 He0 Ho0 Hp0 Ha0).
Qed.
End Own.
