(** Proofs about configured addresses in whole executions *)
From Verif Require Import Base BufferModel NonceModel MethodModel HandshakeModel NodeModel NodeSteps NodeWf NodeInv NodeOwn NodeFun NodeFun2 NodeFun3 NodeFun4
  NodeSpec NodeProofs NodeReloadSpec.
From Coq Require Import Lia ZifyBool ZifyNat ZifyN.
Local Open Scope Z_scope.

Lemma owner_owns : forall n a q, owner n a q -> is_enabled q = true /\ owns_address q a = true.
Proof.
  intros n a q ((_ & Hc) & Hf & Hin). split; [unfold is_enabled; rewrite Hc; reflexivity|].
  unfold owns_address, is_floating, configured_remotes in *. rewrite Hf. destruct (p_remotes q) as [|r l]; [destruct Hin|]. cbn [orb].
  apply existsb_exists. apply in_map_iff in Hin. destruct Hin as (s & E & Hin). exists s. split; [exact Hin|].
  injection E as E1 E2. rewrite E1, E2. apply N.eqb_refl.
Qed.
Lemma owns_owner : forall n a q, In q (n_peers n) -> p_conf q = CStatic -> owns_address q a = true -> owner n a q.
Proof.
  intros n a q Hin Hc Ho. split; [split; assumption|]. unfold owns_address, is_floating in Ho.
  destruct (p_floating q); [rewrite Bool.orb_true_r in Ho; discriminate|]. split; [reflexivity|].
  destruct (_ || _)%bool; [discriminate|]. apply existsb_exists in Ho. destruct Ho as (r & Hr & E).
  unfold configured_remotes. apply in_map_iff. exists r. split; [|exact Hr]. destruct (r_host r); [discriminate|]. apply N.eqb_eq in E. congruence.
Qed.

Definition no_remotes (n : node) : Prop := forall i p, find_id (n_peers n) i = Some p -> is_dynamic p = true -> p_remotes p = [].
Lemma no_remotes_nstep : forall P ev fl n n', nstep P ev fl n n' -> inv0 P n -> no_remotes n -> no_remotes n'.
Proof.
  intros P ev fl n n' H I Hn i p' Hp' Hd. destruct (nstep_find _ _ _ _ _ _ _ H (wf_ids _ (i_wf _ _ I)) Hp') as [(p & Hp & Hc) | (_ & _ & _ & c & st & -> & _ & Hst)].
  - destruct (pchange_static _ _ _ _ _ _ Hc) as (_ & _ & _ & _ & _ & _ & _ & E8 & E9 & _). rewrite E9 in Hd. rewrite (Hn i p Hp Hd) in E8.
    destruct (p_remotes p'); [reflexivity | discriminate].
  - destruct Hst as [[_ ->] | [_ E]]; [discriminate|]. rewrite E. reflexivity.
Qed.
Lemma no_remotes_reach : forall P n, reachable P n -> no_remotes n.
Proof.
  intros P n R. eapply (reachable_ind P no_remotes); [| | |exact R].
  - intros now orc i p Hp. discriminate.
  - intros t m _ _ H. exact H.
  - intros ev fl m m' H I Hn. eapply no_remotes_nstep; eassumption.
Qed.

Lemma respected_safe : forall P n a, reachable P n -> (respected n a <-> safe a n).
Proof.
  intros P n a R. pose proof (reachable_inv P n R) as I. assert (Hi : ids_ok n) by apply (wf_ids _ (i_wf _ _ (i_0 _ _ I))). split.
  - intros H i q j p Hq He Ho Hp Ha. destruct (find_id_in _ _ _ Hq) as [Hinq <-], (find_id_in _ _ _ Hp) as [Hinp <-].
    apply H; [|split; assumption]. apply owns_owner; [exact Hinq | | exact Ho].
    unfold is_enabled in He. destruct (p_conf q) eqn:Ec; try discriminate; [reflexivity|]. exfalso.
    assert (Hd : is_dynamic q = true) by (apply is_dyn_true; exact Ec).
    unfold owns_address, is_floating in Ho. rewrite (no_remotes_reach P n R _ q Hq Hd) in Ho. discriminate.
  - intros H q p Ho (Hp & Ha). destruct (owner_owns _ _ _ Ho) as [He Ho'].
    exact (H (p_id q) q (p_id p) p (in_find n q Hi (proj1 (proj1 Ho))) He Ho' (in_find n p Hi Hp) Ha).
Qed.

Lemma fl_of_rl : forall ev, (forall defs, ev <> EvReload defs) -> f_rl (fl_of ev) = false.
Proof. intros ev H. destruct ev as [? ? ? ?|? ? ?|?| |? ?|? ?|defs|]; try reflexivity. exfalso. exact (H defs eq_refl). Qed.

Lemma safe_handles : forall P n dt ev n' a, inv P n -> handles P n dt ev n' -> (forall defs, ev <> EvReload defs) -> safe a n -> safe a n' /\ inv P n'.
Proof.
  intros P n dt ev n' a I H He Hs. destruct (handles_steps P n dt ev n' H I) as [I1 [[_ F] I2]].
  split; [|exact I2]. apply (F (fl_of_rl ev He)). exact Hs.
Qed.

Theorem respected_kept : forall P n dt ev n' a, reachable P n -> handles P n dt ev n' -> (forall defs, ev <> EvReload defs) -> respected n a -> respected n' a.
Proof.
  intros P n dt ev n' a R H He Hr. apply (respected_safe P); [eapply later_reachable; [exact R | eapply handles_later; exact H]|].
  eapply safe_handles; [exact (reachable_inv P n R) | exact H | exact He |]. apply (respected_safe P n a R). exact Hr.
Qed.

Theorem reload_addresses : forall P n dt defs n' a p', reachable P n -> handles P n dt (EvReload defs) n' -> uses n' a p' ->
  exists p, uses n a p /\ p_id p = p_id p'.
Proof.
  intros P n dt defs n' a p' R H (Hin & Ha). pose proof (reachable_inv P n R) as I. destruct (handles_steps P n dt _ n' H I) as [I1 [[S _] I2]].
  assert (Hi : ids_ok n') by apply (wf_ids _ (i_wf _ _ (i_0 _ _ I2))).
  destruct (addr_steps P _ _ _ _ _ _ _ S eq_refl (i_0 _ _ I1) (in_find n' p' Hi Hin) Ha) as (p & Hp & Hpa).
  exists p. change (n_peers (tick dt n)) with (n_peers n) in Hp. destruct (find_id_in _ _ _ Hp) as [Hp1 Hp2]. split; [split; assumption | exact Hp2].
Qed.

Theorem unused_respected : forall P n dt defs n' a, reachable P n -> handles P n dt (EvReload defs) n' -> (forall p, ~ uses n a p) -> respected n' a.
Proof.
  intros P n dt defs n' a R H Hu q p _ Hp. exfalso. destruct (reload_addresses P n dt defs n' a p R H Hp) as (p0 & Hp0 & _). exact (Hu p0 Hp0).
Qed.

Theorem respected_always : forall P now orc static dirs evs n a, execute P now orc static dirs evs = Ok n ->
  (forall dt defs, ~ In (dt, EvReload defs) evs) -> respected n a.
Proof.
  intros P now orc static dirs evs n a H Hno.
  assert (R : reachable P n) by (exists now, orc, static, dirs, evs; exact H). apply (respected_safe P n a R). clear R. unfold execute in H.
  destruct ((start P static dirs;; run P evs) (empty_node (Z.of_N now) orc)) as [[x n1]| | |] eqn:E; try discriminate. injection H as <-.
  bind E as u m H1. apply (start_to P EvMaintenance) in H1; [|apply empty_inv | reflexivity]. destruct H1 as [[S _] I].
  assert (Hs : safe a m).
  { intros i q j p _ _ _ Hp Ha. exfalso. destruct (addr_steps P _ _ _ _ _ _ _ S eq_refl (empty_inv P _ _) Hp Ha) as (p0 & Hp0 & _). discriminate. }
  clear S u. unfold run in E. revert x m n1 I Hs E. induction evs as [|[dt ev] evs IH]; intros x m n1 I Hs E; cbn [each] in E.
  - apply ret_ok in E. destruct E as [_ ->]. exact Hs.
  - bind E as u m2 H2. destruct u. destruct (safe_handles P m dt ev m2 a I H2) as [Hs2 I2]; [|exact Hs|].
    + intros defs ->. exact (Hno dt defs (or_introl eq_refl)).
    + apply (IH (fun dt' defs' Hin => Hno dt' defs' (or_intror Hin)) x m2 n1 I2 Hs2 E).
Qed.
