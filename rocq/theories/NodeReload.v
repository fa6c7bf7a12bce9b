(** What reloading the peer directories does to the peers of each key *)
From Verif Require Import Base BufferModel NonceModel MethodModel HandshakeModel EthSpec NodeModel NodeSteps NodeWf NodeInv NodeFun NodeFun2 NodeFun3 NodeFun4
  NodeSpec NodeProofs NodeReloadSpec.
From Coq Require Import Lia ZifyBool ZifyNat ZifyN Sorted.
Local Open Scope Z_scope.

(** ** The peer with a key *)
Definition F (n : node) (k : bytes) : option peer := find_peer_key (n_peers n) k.

Lemma F_in : forall n k p, F n k = Some p -> In p (n_peers n) /\ p_key p = k.
Proof. intros n k p H. unfold F, find_peer_key in H. apply find_some in H. destruct H as [H1 H2]. apply bytes_eqb_true in H2. split; assumption. Qed.
Lemma in_F : forall n p, uniq_key n -> In p (n_peers n) -> F n (p_key p) = Some p.
Proof.
  intros n p U H. destruct (F n (p_key p)) as [q|] eqn:E.
  - apply F_in in E. destruct E as [E1 E2]. f_equal. eapply keys_inj; eassumption.
  - exfalso. unfold F, find_peer_key in E. apply (find_none _ _ E) in H. cbn in H.
    assert (bytes_eqb (p_key p) (p_key p) = true) by (apply bytes_eqb_true; reflexivity). congruence.
Qed.
Lemma F_some : forall n k p, uniq_key n -> In p (n_peers n) -> p_key p = k -> F n k = Some p.
Proof. intros n k p U H <-. apply in_F; assumption. Qed.
Lemma F_none : forall n k, (forall p, In p (n_peers n) -> p_key p <> k) -> F n k = None.
Proof. intros n k H. destruct (F n k) as [p|] eqn:E; [|reflexivity]. apply F_in in E. destruct E as [E1 E2]. exfalso. exact (H p E1 E2). Qed.

(** fixed by the definition of a peer *)
Definition conf_of (p : peer) : pconf :=
  mk_pconf (p_key p) (p_group p) (p_dir p) (configured_remotes p) (p_floating p) (p_ifname p) (p_mtu p).
Lemma conf_set : forall c p, conf_of (set_p_conf c p) = conf_of p.
Proof. reflexivity. Qed.
Lemma pchange_conf : forall P ev fl n p p', pchange P ev fl n p p' -> f_rl fl = false -> conf_of p' = conf_of p /\ p_conf p' = p_conf p.
Proof.
  intros P ev fl n p p' H Hr. destruct (pchange_static _ _ _ _ _ _ H) as (E1 & E2 & E3 & E4 & E5 & E6 & E7 & E8 & _ & E9).
  split; [|apply E9; exact Hr]. unfold conf_of, configured_remotes. rewrite E2, E3, E4, E5, E6, E7. f_equal. exact E8.
Qed.

(** *** Without a reload the peers that are not dynamic stay as they are *)
Definition kept_by (n n' : node) : Prop :=
  (forall p, In p (n_peers n) -> is_dynamic p = false ->
     exists p', In p' (n_peers n') /\ p_id p' = p_id p /\ conf_of p' = conf_of p /\ p_conf p' = p_conf p) /\
  (forall p', In p' (n_peers n') -> is_dynamic p' = false ->
     exists p, In p (n_peers n) /\ p_id p' = p_id p /\ conf_of p' = conf_of p /\ p_conf p' = p_conf p).

Lemma dyn_conf_eq : forall p p' : peer, p_conf p' = p_conf p -> is_dynamic p' = is_dynamic p.
Proof. intros p p' E. unfold is_dynamic. rewrite E. reflexivity. Qed.
Lemma nstep_kept : forall P ev fl n n', nstep P ev fl n n' -> f_rl fl = false -> ids_ok n -> ids_ok n' -> kept_by n n'.
Proof.
  intros P ev fl n n' H Hr Hi Hi'. split.
  - intros p Hin Hd. pose proof (in_find n p Hi Hin) as Hf.
    destruct (nstep_fwd _ _ _ _ _ _ _ H Hi Hf) as [(p' & Hp' & Hc) | (_ & _ & _ & [X|X])]; [|congruence|congruence].
    exists p'. apply find_id_in in Hp'. split; [apply Hp'|]. split; [apply Hp'|]. eapply pchange_conf; eassumption.
  - intros p' Hin Hd. pose proof (in_find n' p' Hi' Hin) as Hf.
    destruct (nstep_find _ _ _ _ _ _ _ H Hi Hf) as [(p & Hp & Hc) | (_ & _ & _ & c & st & E & _ & [[X _] | [-> _]])]; [|congruence|].
    + exists p. apply find_id_in in Hp. split; [apply Hp|]. split; [symmetry; apply Hp|]. eapply pchange_conf; eassumption.
    + rewrite E in Hd. discriminate.
Qed.
Lemma kept_trans : forall n n1 n2, kept_by n n1 -> kept_by n1 n2 -> kept_by n n2.
Proof.
  intros n n1 n2 [A1 B1] [A2 B2]. split.
  - intros p Hp Hd. destruct (A1 p Hp Hd) as (p1 & H1 & E1 & E2 & E3). destruct (A2 p1 H1) as (p2 & H2 & E4 & E5 & E6); [rewrite (dyn_conf_eq _ _ E3); exact Hd|].
    exists p2. split; [exact H2|]. split; [congruence|]. split; congruence.
  - intros p Hp Hd. destruct (B2 p Hp Hd) as (p1 & H1 & E1 & E2 & E3). destruct (B1 p1 H1) as (p2 & H2 & E4 & E5 & E6); [rewrite <- (dyn_conf_eq _ _ E3); exact Hd|].
    exists p2. split; [exact H2|]. split; [congruence|]. split; congruence.
Qed.
Lemma steps_kept : forall P ev fl n n', steps P ev fl n n' -> f_rl fl = false -> inv0 P n -> kept_by n n'.
Proof.
  intros P ev fl n n' H Hr. induction H as [|n n1 n2 Hs _ IH]; intros I.
  - split; intros p Hp _; exists p; split; try exact Hp; repeat split.
  - pose proof (inv0_nstep _ _ _ _ _ Hs I) as I1. eapply kept_trans; [|exact (IH I1)].
    eapply nstep_kept; [exact Hs | exact Hr | apply (wf_ids _ (i_wf _ _ I)) | apply (wf_ids _ (i_wf _ _ I1))].
Qed.

(** ** Adding the definitions *)
(** the peer of a key before and after its definition [c] was read; new peers have a
    number that is at least [b] *)
Inductive kstep (b : N) (c : pconf) : option peer -> option peer -> Prop :=
| ks_new : forall id s, (b <= id)%N -> kstep b c None (Some (new_peer id c CNew s))
| ks_dup : forall o, p_conf o = CNew \/ p_conf o = CDisabled -> kstep b c (Some o) (Some (set_p_conf CDisabled o))
| ks_same : forall o, p_conf o = CStatic -> configs_equal o c = true -> kstep b c (Some o) (Some (set_p_conf CNew o))
| ks_replace : forall o id s, p_conf o = CDynamic \/ (p_conf o = CStatic /\ configs_equal o c = false) -> (b <= id)%N ->
    kstep b c (Some o) (Some (new_peer id c CNew s)).
Inductive ksteps (b : N) : list pconf -> option peer -> option peer -> Prop :=
| kk_nil : forall o, ksteps b [] o o
| kk_cons : forall c l o o1 o2, kstep b c o o1 -> ksteps b l o1 o2 -> ksteps b (c :: l) o o2.

Lemma F_change : forall n n' k, uniq_key n -> uniq_key n' -> 
  (forall p, p_key p = k -> (In p (n_peers n') <-> In p (n_peers n))) -> F n' k = F n k.
Proof.
  intros n n' k U U' H. destruct (F n k) as [p|] eqn:E.
  - apply F_in in E. destruct E as [E1 E2]. apply F_some; [exact U' | apply H; assumption | exact E2].
  - apply F_none. intros p Hp Ek. apply H in Hp; [|exact Ek]. rewrite (F_some n k p U Hp Ek) in E. discriminate.
Qed.
Lemma find_in_iff : forall n p, ids_ok n -> (In p (n_peers n) <-> find_id (n_peers n) (p_id p) = Some p).
Proof. intros n p Hi. split; [apply in_find; exact Hi | intros H; apply find_id_in in H; apply H]. Qed.
(** only the peer with the number [i] and the key [k] is different *)
Lemma F_other : forall n n' i k, wf n -> wf n' -> (forall q, q <> i -> find_id (n_peers n') q = find_id (n_peers n) q) ->
  (forall p, find_id (n_peers n) i = Some p -> p_key p = k) -> (forall p, find_id (n_peers n') i = Some p -> p_key p = k) ->
  forall k', k' <> k -> F n' k' = F n k'.
Proof.
  intros n n' i k W W' O K K' k' Ne. apply F_change; [apply wf_key; exact W | apply wf_key; exact W'|]. intros p Ek.
  rewrite (find_in_iff n p (wf_ids _ W)), (find_in_iff n' p (wf_ids _ W')). destruct (N.eq_dec (p_id p) i) as [Ei|Ei].
  - rewrite Ei. split; intros Hp; exfalso; apply Ne; rewrite <- Ek; [apply K' | apply K]; exact Hp.
  - rewrite (O _ Ei). tauto.
Qed.
Lemma F_find : forall n k p, wf n -> (F n k = Some p <-> find_id (n_peers n) (p_id p) = Some p /\ p_key p = k).
Proof.
  intros n k p W. split.
  - intros H. apply F_in in H. destruct H as [H1 H2]. split; [apply in_find; [apply wf_ids; exact W | exact H1] | exact H2].
  - intros [H1 H2]. apply F_some; [apply wf_key; exact W | apply find_id_in in H1; apply H1 | exact H2].
Qed.

Section Reload.
Variable P : params.

Lemma insert_key : forall c id n n', insert_peer c CNew n = Ok (id, n') -> inv0 P n -> F n (pc_key c) = None ->
  inv0 P n' /\ (n_next_id n <= n_next_id n')%N /\ F n' (pc_key c) = Some (new_peer id c CNew (k_serial (n_cur n))) /\ id = n_next_id n /\
  (forall k, k <> pc_key c -> F n' k = F n k).
Proof.
  intros c id n n' H I Hk. destruct (insert_new P _ _ _ _ _ H I) as (Eid & E & F1 & F2).
  assert (I' : inv0 P n').
  { eapply (inv0_steps P EvMaintenance fd); [|exact I]. rewrite E, Eid. apply steps_one. apply N_insert; [exact Hk | left; split; reflexivity | reflexivity]. }
  pose proof (i_wf _ _ I) as W. pose proof (i_wf _ _ I') as W'. split; [exact I'|]. split; [rewrite E; cbn; lia|]. split; [|split; [exact Eid|]].
  - apply F_find; [exact W'|]. split; [exact F1 | reflexivity].
  - apply (F_other n n' id (pc_key c) W W' F2).
    + intros p Hp. exfalso. apply found_below in Hp; [|apply (wf_ids _ W)]. lia.
    + intros p Hp. rewrite F1 in Hp. injection Hp as <-. reflexivity.
Qed.

Lemma peer_add_key : forall c x n n', peer_add P c CNew n = Ok (x, n') -> inv0 P n ->
  inv0 P n' /\ (n_next_id n <= n_next_id n')%N /\ kstep (n_next_id n) c (F n (pc_key c)) (F n' (pc_key c)) /\
  (forall k, k <> pc_key c -> F n' k = F n k).
Proof.
  intros c x n n' H I. unfold peer_add in H. bind H as l m H1. apply gets_ok in H1. destruct H1 as [-> ->]. fold (F n (pc_key c)) in H.
  pose proof (i_wf _ _ I) as W.
  destruct (F n (pc_key c)) as [o|] eqn:Ek.
  - pose proof (proj1 (F_find n _ o W) Ek) as [Hf Eo].
    assert (Hwr : forall k y m', wr (p_id o) (set_p_conf k) n = Ok (y, m') -> p_conf o <> CDynamic -> k <> CDynamic ->
      inv0 P m' /\ (n_next_id n <= n_next_id m')%N /\ F m' (pc_key c) = Some (set_p_conf k o) /\ (forall k, k <> pc_key c -> F m' k = F n k)).
    { intros k y m' Hw Hc Hk. assert (I' : inv0 P m').
      { eapply (inv0_steps P EvMaintenance fd); [|exact I]. eapply wr_steps; [exact Hw|]. intros q Hq. rewrite Hf in Hq. injection Hq as <-.
        apply ps_conf; [reflexivity | exact Hc | exact Hk]. }
      pose proof (i_wf _ _ I') as W'. pose proof (loc_wr _ _ _ _ _ Hw ltac:(intros z; reflexivity)) as [O _].
      pose proof Hw as Hw2. apply wr_ok in Hw2. destruct Hw2 as (p & Hp & E). rewrite Hf in Hp. injection Hp as <-.
      assert (F1 : find_id (n_peers m') (p_id o) = Some (set_p_conf k o)).
      { rewrite E. cbn [n_peers set_n_peers]. apply find_id_upd_same; [intros z; reflexivity | exact Hf]. }
      split; [exact I'|]. split; [rewrite E; cbn; lia|]. split.
      - apply F_find; [exact W'|]. split; [exact F1 | exact Eo].
      - apply (F_other n m' (p_id o) (pc_key c) W W' O).
        + intros p Hp. rewrite Hf in Hp. injection Hp as <-. exact Eo.
        + intros p Hp. rewrite F1 in Hp. injection Hp as <-. exact Eo. }
    assert (Hdel : p_conf o = CDynamic \/ (p_conf o = CStatic /\ configs_equal o c = false) ->
      (peer_delete P (p_id o) ;; id <- insert_peer c CNew ;; ret (AddNew id)) n = Ok (x, n') ->
      inv0 P n' /\ (n_next_id n <= n_next_id n')%N /\ kstep (n_next_id n) c (Some o) (F n' (pc_key c)) /\ (forall k, k <> pc_key c -> F n' k = F n k)).
    { clear H. intros Hcase H. bind H as u m H1. bind H as id m1 H2. apply ret_ok in H. destruct H as [_ ->].
      assert (I1 : inv0 P m) by (eapply (inv0_steps P EvMaintenance fd); [eapply peer_delete_steps; [exact H1 | reflexivity | left; reflexivity] | exact I]).
      pose proof (i_wf _ _ I1) as W1.
      pose proof (loc_peer_delete _ _ _ _ _ H1) as [O1 (_ & _ & En & _)]. pose proof (peer_delete_gone _ _ _ _ _ H1) as G1.
      assert (Fk : forall k, k <> pc_key c -> F m k = F n k).
      { apply (F_other n m (p_id o) (pc_key c) W W1 O1); intros p Hp; [|congruence]. rewrite Hf in Hp. injection Hp as <-. exact Eo. }
      assert (Fn : F m (pc_key c) = None).
      { apply F_none. intros p Hp E. apply (in_find m p (wf_ids _ W1)) in Hp. destruct (N.eq_dec (p_id p) (p_id o)) as [Ei|Ei]; [rewrite Ei in Hp; congruence|].
        rewrite (O1 _ Ei) in Hp. apply find_id_in in Hp. destruct Hp as [Hp _]. apply Ei. f_equal.
        eapply keys_inj; [exact (wf_key _ W) | exact Hp | apply (find_id_in _ _ _ Hf) | congruence]. }
      destruct (insert_key _ _ _ _ H2 I1 Fn) as (I2 & L2 & F2 & Eid & G2). split; [exact I2|]. split; [lia|]. split.
      - rewrite F2. apply ks_replace; [exact Hcase | lia].
      - intros k Ne. rewrite (G2 k Ne). exact (Fk k Ne). }
    destruct (p_conf o) eqn:Ec.
    + bind H as u m H1. apply ret_ok in H. destruct H as [_ ->]. destruct (Hwr _ _ _ H1) as (A & B & C & D); [discriminate | discriminate|].
      split; [exact A|]. split; [exact B|]. split; [rewrite C; apply ks_dup; left; exact Ec | exact D].
    + destruct (configs_equal o c) eqn:Eq; [|apply Hdel; [right; split; reflexivity | exact H]].
      bind H as u m H1. apply ret_ok in H. destruct H as [_ ->]. destruct (Hwr _ _ _ H1) as (A & B & C & D); [discriminate | discriminate|].
      split; [exact A|]. split; [exact B|]. split; [rewrite C; apply ks_same; assumption | exact D].
    + bind H as u m H1. apply ret_ok in H. destruct H as [_ ->]. destruct (Hwr _ _ _ H1) as (A & B & C & D); [discriminate | discriminate|].
      split; [exact A|]. split; [exact B|]. split; [rewrite C; apply ks_dup; right; exact Ec | exact D].
    + apply Hdel; [left; reflexivity | exact H].
  - bind H as id m H1. apply ret_ok in H. destruct H as [_ ->]. destruct (insert_key _ _ _ _ H1 I Ek) as (I2 & L2 & F2 & Eid & G2).
    split; [exact I2|]. split; [exact L2|]. split; [rewrite F2; apply ks_new; lia | exact G2].
Qed.

Lemma kstep_le : forall b b' c o o', (b <= b')%N -> kstep b' c o o' -> kstep b c o o'.
Proof.
  intros b b' c o o' L H. destruct H; [apply ks_new; lia | apply ks_dup; assumption | apply ks_same; assumption | apply ks_replace; [assumption | lia]].
Qed.
Lemma ksteps_le : forall b b' l o o', (b <= b')%N -> ksteps b' l o o' -> ksteps b l o o'.
Proof.
  intros b b' l o o' L H. induction H as [|c l o o1 o2 H _ IH]; [apply kk_nil|]. eapply kk_cons; [eapply kstep_le; eassumption | exact IH].
Qed.
Lemma of_key_cons : forall k c l, of_key k (c :: l) = if bytes_dec (pc_key c) k then c :: of_key k l else of_key k l.
Proof. intros k c l. unfold of_key. cbn [filter]. destruct (bytes_dec (pc_key c) k); reflexivity. Qed.

Lemma adds_key : forall l x n n', each (fun c => peer_add P c CNew ;; ret tt) l n = Ok (x, n') -> inv0 P n ->
  inv0 P n' /\ (n_next_id n <= n_next_id n')%N /\ forall k, ksteps (n_next_id n) (of_key k l) (F n k) (F n' k).
Proof.
  induction l as [|c l IH]; intros x n n' H I; cbn [each] in H.
  - apply ret_ok in H. destruct H as [_ ->]. split; [exact I|]. split; [lia|]. intros k. apply kk_nil.
  - bind H as u m H1. bind H1 as a m1 H2. apply ret_ok in H1. destruct H1 as [_ ->].
    destruct (peer_add_key _ _ _ _ H2 I) as (I1 & L1 & K1 & O1). destruct (IH _ _ _ H I1) as (I2 & L2 & K2).
    split; [exact I2|]. split; [lia|]. intros k. rewrite of_key_cons. destruct (bytes_dec (pc_key c) k) as [E|E].
    + subst k. eapply kk_cons; [exact K1 | eapply ksteps_le; [exact L1 | apply K2]].
    + rewrite <- (O1 k) by congruence. eapply ksteps_le; [exact L1 | apply K2].
Qed.

(** ** Configuring *)
Definition disables (p : peer) : Prop := p_conf p = CDisabled \/ p_key p = c_own P.
Inductive cstep (p : peer) : option peer -> Prop :=
| cs_gone : p_conf p = CStatic -> cstep p None
| cs_dyn : p_conf p = CDynamic -> cstep p (Some p)
| cs_disabled : forall p', p_conf p = CNew \/ p_conf p = CDisabled -> disables p -> p_id p' = p_id p -> conf_of p' = conf_of p ->
    p_conf p' = CDisabled -> is_established p' = false -> cstep p (Some p')
| cs_enabled : forall p', p_conf p = CNew -> p_key p <> c_own P -> p_id p' = p_id p -> conf_of p' = conf_of p ->
    p_conf p' = CStatic -> (is_established p = true -> p' = set_p_conf CStatic p) -> cstep p (Some p').

Lemma peer_reset_conf : forall pid x n n' p, peer_reset P pid n = Ok (x, n') -> inv0 P n -> find_id (n_peers n) pid = Some p -> is_dynamic p = false ->
  exists p', find_id (n_peers n') pid = Some p' /\ conf_of p' = conf_of p /\ p_conf p' = p_conf p /\ is_established p' = false.
Proof.
  intros pid x n n' p H I Hf Hd.
  assert (S : steps P EvMaintenance (fr pid) n n') by (eapply peer_reset_steps; [exact H | apply N.eqb_refl]).
  destruct (steps_kept _ _ _ _ _ S eq_refl I) as [A _]. pose proof (find_id_in _ _ _ Hf) as [Hin Ei].
  destruct (A p Hin Hd) as (p' & Hp' & E1 & E2 & E3). pose proof (inv0_steps _ _ _ _ _ S I) as I'.
  apply (in_find n' p' (wf_ids _ (i_wf _ _ I'))) in Hp'. rewrite E1, Ei in Hp'. exists p'. split; [exact Hp'|]. split; [exact E2|]. split; [exact E3|].
  exact (peer_reset_unest P EvMaintenance _ _ _ _ H I p' Hp').
Qed.

Lemma configure_peer_key : forall d pid x n n' p, configure_peer P d pid n = Ok (x, n') -> inv0 P n -> find_id (n_peers n) pid = Some p ->
  loc pid n n' /\ inv0 P n' /\ cstep p (find_id (n_peers n') pid).
Proof.
  intros d pid x n n' p H I Hf. unfold configure_peer in H. bind H as p0 m H1. apply rd_ok in H1. destruct H1 as [Hf0 ->].
  rewrite Hf in Hf0. injection Hf0 as <-. pose proof (find_id_in _ _ _ Hf) as [_ Ei].
  assert (Hrest : p_conf p = CNew \/ p_conf p = CDisabled -> (
      (match p_conf p with
       | CDisabled => ret tt
       | _ => when (bytes_eqb (c_own P) (p_key p)) (wr pid (set_p_conf CDisabled))
       end) ;;
      p <- rd pid ;;
      match p_conf p with
      | CDisabled => peer_reset P pid
      | _ =>
          when (is_floating p) (modn (set_n_floating true)) ;;
          wr pid (set_p_conf CStatic) ;;
          when (negb (is_established p) && (p_dir p || negb d))%bool (peer_reset P pid)
      end) n = Ok (x, n') ->
      loc pid n n' /\ inv0 P n' /\ cstep p (find_id (n_peers n') pid)).
  { clear H. intros Hc H. bind H as u m H1.
    assert (A : inv0 P m /\ loc pid n m /\ exists c, find_id (n_peers m) pid = Some (set_p_conf c p) /\
      ((c = CNew /\ p_key p <> c_own P /\ p_conf p = CNew) \/ (c = CDisabled /\ disables p))).
    { destruct Hc as [Hc|Hc]; rewrite Hc in H1.
      - unfold when in H1. destruct (bytes_eqb (c_own P) (p_key p)) eqn:Ek.
        + apply bytes_eqb_true in Ek. pose proof H1 as H2. apply wr_ok in H2. destruct H2 as (q & Hq & E). rewrite Hf in Hq. injection Hq as <-.
          split; [|split; [eapply loc_wr; [exact H1 | intros z; reflexivity]|]].
          * eapply (inv0_steps P EvMaintenance fd); [|exact I]. eapply wr_steps; [exact H1|]. intros q Hq. rewrite Hf in Hq. injection Hq as <-.
            apply ps_conf; [reflexivity | congruence | discriminate].
          * exists CDisabled. rewrite E. split; [apply find_id_upd_same; [intros z; reflexivity | exact Hf]|]. right. split; [reflexivity | right; congruence].
        + apply ret_ok in H1. destruct H1 as [_ ->]. split; [exact I|]. split; [apply loc_refl|]. exists CNew.
          split; [rewrite Hf, <- Hc; destruct p; reflexivity|]. left. split; [reflexivity|]. split; [|exact Hc]. intros E. rewrite E in Ek.
          assert (X : bytes_eqb (c_own P) (c_own P) = true) by (apply bytes_eqb_true; reflexivity). congruence.
      - apply ret_ok in H1. destruct H1 as [_ ->]. split; [exact I|]. split; [apply loc_refl|]. exists CDisabled.
        split; [rewrite Hf, <- Hc; destruct p; reflexivity|]. right. split; [reflexivity | left; exact Hc]. }
    clear H1. destruct A as (I1 & L1 & c & Hf1 & Ec).
    bind H as p1 m1 H1. apply rd_ok in H1. destruct H1 as [Hf1' ->]. rewrite Hf1 in Hf1'. injection Hf1' as <-.
    cbn [p_conf set_p_conf] in H. destruct Ec as [(-> & Ek & Ecp) | (-> & Hdis)].
    - bind H as u2 m2 H2. assert (A2 : inv0 P m2 /\ loc pid m m2 /\ n_peers m2 = n_peers m).
      { unfold when in H2. destruct (is_floating _).
        - apply modn_ok in H2. subst m2. split; [eapply (inv0_steps P EvMaintenance fd); [apply steps_one; apply N_floating | exact I1]|]. split; [apply loc_same; [reflexivity | repeat split] | reflexivity].
        - apply ret_ok in H2. destruct H2 as [_ ->]. split; [exact I1|]. split; [apply loc_refl | reflexivity]. }
      clear H2. destruct A2 as (I2 & L2 & E2). bind H as u3 m3 H3.
      pose proof (loc_wr _ _ _ _ _ H3 ltac:(intros z; reflexivity)) as L3.
      assert (I3 : inv0 P m3).
      { eapply (inv0_steps P EvMaintenance fd); [|exact I2]. eapply wr_steps; [exact H3|]. intros q Hq. rewrite E2, Hf1 in Hq. injection Hq as <-. apply ps_conf; [reflexivity | discriminate | discriminate]. }
      apply wr_ok in H3. destruct H3 as (q & Hq & E3). rewrite E2, Hf1 in Hq. injection Hq as <-.
      assert (F3 : find_id (n_peers m3) pid = Some (set_p_conf CStatic p)).
      { rewrite E3. cbn [n_peers set_n_peers]. rewrite E2. rewrite (find_id_upd_same _ _ _ (set_p_conf CNew p)); [reflexivity | intros z; reflexivity | exact Hf1]. }
      assert (L123 : loc pid n m3) by (eapply loc_trans; [exact L1 | eapply loc_trans; eassumption]).
      unfold when in H. destruct (negb (is_established (set_p_conf CNew p)) && (p_dir (set_p_conf CNew p) || negb d))%bool eqn:Er.
      + destruct (peer_reset_conf _ _ _ _ _ H I3 F3 eq_refl) as (p' & Hp' & C1 & C2 & C3).
        split; [eapply loc_trans; [exact L123 | eapply loc_peer_reset; exact H]|].
        split; [eapply (inv0_steps P EvMaintenance fd); [eapply peer_reset_steps; [exact H | reflexivity] | exact I3]|].
        rewrite Hp'. apply cs_enabled; [exact Ecp | exact Ek | | exact C1 | exact C2|].
        * apply find_id_in in Hp'. destruct Hp' as [_ Ep']. congruence.
        * intros Est. change (is_established (set_p_conf CNew p)) with (is_established p) in Er. rewrite Est in Er. discriminate.
      + apply ret_ok in H. destruct H as [_ ->]. split; [exact L123|]. split; [exact I3|]. rewrite F3.
        apply cs_enabled; [exact Ecp | exact Ek | reflexivity | reflexivity | reflexivity | reflexivity].
    - destruct (peer_reset_conf _ _ _ _ _ H I1 Hf1 eq_refl) as (p' & Hp' & C1 & C2 & C3).
      split; [eapply loc_trans; [exact L1 | eapply loc_peer_reset; exact H]|].
      split; [eapply (inv0_steps P EvMaintenance fd); [eapply peer_reset_steps; [exact H | reflexivity] | exact I1]|].
      rewrite Hp'. apply cs_disabled; [exact Hc | exact Hdis | | exact C1 | exact C2 | exact C3].
      apply find_id_in in Hp'. destruct Hp' as [_ Ep']. congruence. }
  destruct (p_conf p) eqn:Ec.
  - apply Hrest; [left; reflexivity | exact H].
  - split; [eapply loc_peer_delete; exact H|]. split; [eapply (inv0_steps P EvMaintenance fd); [eapply peer_delete_steps; [exact H | reflexivity | left; reflexivity] | exact I]|].
    rewrite (peer_delete_gone _ _ _ _ _ H). apply cs_gone. exact Ec.
  - apply Hrest; [right; reflexivity | exact H].
  - apply ret_ok in H. destruct H as [_ ->]. split; [apply loc_refl|]. split; [exact I|]. rewrite Hf. apply cs_dyn. exact Ec.
Qed.

Lemma configure_list_key : forall d l x n n', each (configure_peer P d) l n = Ok (x, n') -> NoDup l -> inv0 P n ->
  (forall q, In q l -> exists p, find_id (n_peers n) q = Some p) ->
  inv0 P n' /\ (forall q, ~ In q l -> find_id (n_peers n') q = find_id (n_peers n) q) /\
  (forall q p, In q l -> find_id (n_peers n) q = Some p -> cstep p (find_id (n_peers n') q)) /\ n_next_id n' = n_next_id n.
Proof.
  intros d l. induction l as [|q l IH]; intros x n n' H Hnd I Hex; cbn [each] in H.
  - apply ret_ok in H. destruct H as [_ ->]. split; [exact I|]. split; [reflexivity|]. split; [intros q p [] | reflexivity].
  - inversion Hnd as [|a b Hn Hnd' E]; subst. bind H as u m H1. destruct (Hex q (or_introl eq_refl)) as [p Hp].
    destruct (configure_peer_key _ _ _ _ _ _ H1 I Hp) as ([O1 (_ & _ & En & _)] & I1 & C1).
    assert (Ne : forall r, In r l -> r <> q) by (intros r Hr ->; contradiction).
    destruct (IH _ _ _ H Hnd' I1) as (I2 & O2 & C2 & N2).
    { intros r Hr. rewrite (O1 r (Ne r Hr)). apply Hex. right. exact Hr. }
    split; [exact I2|]. split; [|split; [|congruence]].
    + intros r Hr. rewrite (O2 r) by (intros Hr2; apply Hr; right; exact Hr2). apply O1. intros ->. apply Hr. left. reflexivity.
    + intros r p0 [<- | Hr] Hp0.
      * rewrite (O2 q Hn). rewrite Hp in Hp0. injection Hp0 as <-. exact C1.
      * apply C2; [exact Hr|]. rewrite (O1 r (Ne r Hr)). exact Hp0.
Qed.

Lemma cstep_key : forall p o, cstep p o -> forall p', o = Some p' -> p_id p' = p_id p /\ conf_of p' = conf_of p.
Proof. intros p o H p' E. destruct H; try discriminate; injection E as <-; split; try assumption; reflexivity. Qed.
Lemma conf_key : forall p p', conf_of p' = conf_of p -> p_key p' = p_key p.
Proof. intros p p' E. apply (f_equal pc_key) in E. exact E. Qed.

Lemma configure_peers_key : forall d x n n', configure_peers P d n = Ok (x, n') -> inv0 P n ->
  inv0 P n' /\ n_next_id n' = n_next_id n /\
  forall k, match F n k with None => F n' k = None | Some p => cstep p (F n' k) end.
Proof.
  intros d x n n' H I. unfold configure_peers in H. bind H as u m H1. apply modn_ok in H1. bind H as l m1 H2. apply gets_ok in H2. destruct H2 as [-> ->].
  assert (I1 : inv0 P m) by (eapply (inv0_steps P EvMaintenance fd); [rewrite H1; apply steps_one; apply N_floating | exact I]).
  assert (Ep : n_peers m = n_peers n) by (rewrite H1; reflexivity).
  pose proof (i_wf _ _ I) as W. assert (Hi := wf_ids _ W).
  assert (Hin : forall q, In q (rev (map p_id (n_peers m))) <-> exists p, find_id (n_peers n) q = Some p).
  { intros q. rewrite <- in_rev, Ep, in_map_iff. split.
    - intros (p & <- & Hp). exists p. apply (in_find n p Hi Hp).
    - intros (p & Hp). apply find_id_in in Hp. exists p. tauto. }
  destruct (configure_list_key _ _ _ _ _ H) as (I2 & O2 & C2 & N2);
    [apply NoDup_rev, sorted_nodup; apply (wf_ids _ (i_wf _ _ I1)) | exact I1 | intros q Hq; rewrite Ep; apply Hin; exact Hq|].
  pose proof (i_wf _ _ I2) as W2. rewrite Ep in C2, O2, Hin.
  split; [exact I2|]. split; [rewrite N2, H1; reflexivity|].
  assert (Back : forall p', In p' (n_peers n') -> exists p, find_id (n_peers n) (p_id p') = Some p /\ p_key p' = p_key p).
  { intros p' Hp'. apply (in_find n' p' (wf_ids _ W2)) in Hp'. destruct (find_id (n_peers n) (p_id p')) as [p|] eqn:E.
    - exists p. split; [reflexivity|]. pose proof (C2 _ p (proj2 (Hin (p_id p')) (ex_intro _ p E)) E) as C. rewrite Hp' in C.
      apply conf_key. apply (cstep_key _ _ C p' eq_refl).
    - rewrite O2 in Hp'; [congruence|]. intros X. apply Hin in X. destruct X as [p X]. congruence. }
  intros k. destruct (F n k) as [p|] eqn:Ek.
  - apply (F_find n k p W) in Ek. destruct Ek as [Hp Ek].
    assert (E : F n' k = find_id (n_peers n') (p_id p)).
    { pose proof (C2 _ p (proj2 (Hin (p_id p)) (ex_intro _ p Hp)) Hp) as C.
      destruct (find_id (n_peers n') (p_id p)) as [p'|] eqn:E.
      - destruct (cstep_key _ _ C p' eq_refl) as [E1 E2]. apply F_find; [exact W2|]. rewrite E1. split; [exact E | rewrite (conf_key _ _ E2); exact Ek].
      - apply F_none. intros q Hq Eq. destruct (Back q Hq) as (p0 & Hp0 & E0). apply (in_find n' q (wf_ids _ W2)) in Hq.
        assert (p0 = p).
        { eapply keys_inj; [exact (wf_key _ W) | apply (find_id_in _ _ _ Hp0) | apply (find_id_in _ _ _ Hp) | congruence]. }
        subst p0. pose proof (proj2 (find_id_in _ _ _ Hp0)) as X. rewrite <- X in Hq. congruence. }
    rewrite E. apply C2; [apply Hin; exists p; exact Hp | exact Hp].
  - apply F_none. intros q Hq Eq. destruct (Back q Hq) as (p0 & Hp0 & E0). apply find_id_in in Hp0. destruct Hp0 as [Hp0 _].
    rewrite (F_some n k p0 (wf_key _ W) Hp0) in Ek; [discriminate | congruence].
Qed.

Lemma F_map : forall n n' k, n_peers n' = map pre_reload (n_peers n) -> F n' k = option_map pre_reload (F n k).
Proof.
  intros n n' k E. unfold F, find_peer_key. rewrite E. clear E. induction (n_peers n) as [|p l IH]; [reflexivity|]. cbn [map find].
  destruct (pre_reload_const p) as (c & Ec & _). rewrite Ec. cbn [p_key set_p_conf]. rewrite <- Ec.
  destruct (bytes_eqb (p_key p) k); [reflexivity | exact IH].
Qed.

(** ** The whole reload, per key *)
Lemma load_key : forall d defs x n n', load_peer_dirs P d defs n = Ok (x, n') -> inv0 P n ->
  inv0 P n' /\ forall k, exists o, ksteps (n_next_id n) (of_key k defs) (option_map pre_reload (F n k)) o /\
    match o with None => F n' k = None | Some p => cstep p (F n' k) end.
Proof.
  intros d defs x n n' H I. unfold load_peer_dirs in H. bind H as u m H1. apply modn_ok in H1.
  assert (I1 : inv0 P m) by (eapply (inv0_steps P EvMaintenance fd); [rewrite H1; apply steps_one; apply N_pre_reload; reflexivity | exact I]).
  bind H as u2 m2 H2. destruct (adds_key _ _ _ _ H2 I1) as (I2 & _ & K). destruct (configure_peers_key _ _ _ _ H I2) as (I3 & _ & C).
  split; [exact I3|]. intros k. exists (F m2 k). split; [|apply C].
  specialize (K k). rewrite (F_map n m k) in K by (rewrite H1; reflexivity). rewrite H1 in K. exact K.
Qed.
End Reload.
