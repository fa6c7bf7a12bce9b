(** Configuration changes, events and whole executions as steps *)
From Verif Require Import Base BufferModel NonceModel MethodModel HandshakeModel NodeModel NodeSteps NodeWf NodeInv NodeFun NodeFun2 NodeFun3.
From Coq Require Import Lia ZifyBool ZifyNat ZifyN Sorted.
Local Open Scope Z_scope.

(** flags of a change of the configuration *)
Definition fd : flags := mk_flags true false all no no no no no false.
Lemma to_fd : forall P ev n n', steps P ev fd n n' -> inv P n' -> to P ev fd n n'.
Proof. intros P ev n n' H I. split; [split; [exact H | discriminate] | exact I]. Qed.

Lemma keys_inj : forall n p q, uniq_key n -> In p (n_peers n) -> In q (n_peers n) -> p_key p = p_key q -> p = q.
Proof.
  intros n p q Hk Hp Hq E. unfold uniq_key in Hk. revert Hk Hp Hq. induction (n_peers n) as [|x l IH]; intros Hk Hp Hq; [destruct Hp|].
  cbn [map] in Hk. inversion Hk as [|a b Hn Hk' E1]; subst. destruct Hp as [<- | Hp], Hq as [<- | Hq]; [reflexivity | | | exact (IH Hk' Hp Hq)].
  - exfalso. apply Hn. rewrite E. apply in_map. exact Hq.
  - exfalso. apply Hn. rewrite <- E. apply in_map. exact Hp.
Qed.

Section Fun.
Variables (P : params) (ev : event).
Notation Inv := (inv P).
Notation To := (to P ev).
Notation St := (steps P ev).

Lemma loc_peer_delete : forall pid x n n', peer_delete P pid n = Ok (x, n') -> loc pid n n'.
Proof.
  intros pid x n n' H. unfold peer_delete in H. bind H as u m H1. apply loc_reset_peer in H1. apply modn_ok in H. subst n'.
  destruct H1 as [O (A & B & C & D)]. split; [|repeat split; assumption]. intros q Hq. rewrite <- (O q Hq).
  exact (find_filter_fwd _ _ _ Hq).
Qed.

Definition dyn_alive (n : node) : Prop := forall q p, find_id (n_peers n) q = Some p -> is_dynamic p = true -> actp p.
Definition main_alive (n : node) : Prop := forall q p, find_id (n_peers n) q = Some p -> p_dir p = false -> p_key p <> c_own P -> actp p.

Lemma configure_peer_to : forall d pid x n n', configure_peer P d pid n = Ok (x, n') -> inv0 P n ->
  (forall p, find_id (n_peers n) pid = Some p -> is_dynamic p = true -> actp p) ->
  (d = true -> forall p, find_id (n_peers n) pid = Some p -> p_dir p = false -> p_key p <> c_own P -> actp p) ->
  St fd n n' /\ loc pid n n' /\ alive_at pid n' /\
  (forall p p', find_id (n_peers n) pid = Some p -> find_id (n_peers n') pid = Some p' -> p_conf p = CNew -> p_key p <> c_own P -> is_enabled p' = true).
Proof.
  intros d pid x n n' H I Hd Hm. unfold configure_peer in H. bind H as p m H1. apply rd_ok in H1. destruct H1 as [Hf ->].
  assert (Hrest : p_conf p = CNew \/ p_conf p = CDisabled -> (
      (match p_conf p with
       | CDisabled => ret tt
       | _ => when (bytes_eqb (c_own P) (p_key p)) (wr pid (set_p_conf CDisabled))
       end) ;;
      p <- rd pid ;;
      match p_conf p with
      | CDisabled => peer_reset P pid
      | _ =>
          when (is_floating p) (modn (set_n_floating true)) ;;
          wr pid (set_p_conf CStatic) ;;
          when (negb (is_established p) && (p_dir p || negb d))%bool (peer_reset P pid)
      end) n = Ok (x, n') ->
      St fd n n' /\ loc pid n n' /\ alive_at pid n' /\
      (forall p p', find_id (n_peers n) pid = Some p -> find_id (n_peers n') pid = Some p' -> p_conf p = CNew -> p_key p <> c_own P -> is_enabled p' = true)).
  { clear H. intros Hc H. bind H as u m H1.
    assert (A : St fd n m /\ loc pid n m /\ exists c, find_id (n_peers m) pid = Some (set_p_conf c p) /\ (c = CNew \/ c = CDisabled) /\
      (c = CNew -> p_key p <> c_own P) /\ (p_conf p = CNew -> p_key p <> c_own P -> c = CNew)).
    { destruct Hc as [Hc|Hc]; rewrite Hc in H1.
      - unfold when in H1. destruct (bytes_eqb (c_own P) (p_key p)) eqn:Ek.
        + apply bytes_eqb_true in Ek. pose proof H1 as H2. apply wr_ok in H2. destruct H2 as (q & Hq & ->). rewrite Hf in Hq. injection Hq as <-.
          split; [|split; [eapply loc_wr; [exact H1 | intros z; reflexivity]|]].
          * eapply wr_steps; [exact H1|]. intros q Hq. rewrite Hf in Hq. injection Hq as <-. apply ps_conf; [reflexivity | congruence | discriminate].
          * exists CDisabled. split; [apply find_id_upd_same; [intros z; reflexivity | exact Hf]|]. split; [right; reflexivity|]. split; [discriminate | congruence].
        + apply ret_ok in H1. destruct H1 as [_ ->]. split; [apply steps_refl|]. split; [apply loc_refl|]. exists CNew.
          split; [rewrite Hf, <- Hc; destruct p; reflexivity|]. split; [left; reflexivity|]. split; [|reflexivity]. intros _ E. rewrite E in Ek.
          assert (X : bytes_eqb (c_own P) (c_own P) = true) by (apply bytes_eqb_true; reflexivity). congruence.
      - apply ret_ok in H1. destruct H1 as [_ ->]. split; [apply steps_refl|]. split; [apply loc_refl|]. exists CDisabled.
        split; [rewrite Hf, <- Hc; destruct p; reflexivity|]. split; [right; reflexivity|]. split; [discriminate | congruence]. }
    clear H1. destruct A as (S1 & L1 & c & Hf1 & Ec & Ek & Ek2). pose proof (inv0_steps _ _ _ _ _ S1 I) as I1.
    bind H as p1 m1 H1. apply rd_ok in H1. destruct H1 as [Hf1' ->]. rewrite Hf1 in Hf1'. injection Hf1' as <-.
    cbn [p_conf set_p_conf] in H. destruct Ec as [-> | ->].
    - bind H as u2 m2 H2. assert (A2 : St fd m m2 /\ loc pid m m2 /\ n_peers m2 = n_peers m).
      { unfold when in H2. destruct (is_floating _).
        - apply modn_ok in H2. subst m2. split; [apply steps_one; apply N_floating|]. split; [apply loc_same; [reflexivity | repeat split] | reflexivity].
        - apply ret_ok in H2. destruct H2 as [_ ->]. split; [apply steps_refl|]. split; [apply loc_refl | reflexivity]. }
      clear H2. destruct A2 as (S2 & L2 & E2). bind H as u3 m3 H3.
      pose proof (loc_wr _ _ _ _ _ H3 ltac:(intros z; reflexivity)) as L3.
      assert (S3 : St fd m2 m3).
      { eapply wr_steps; [exact H3|]. intros q Hq. rewrite E2, Hf1 in Hq. injection Hq as <-. apply ps_conf; [reflexivity | discriminate | discriminate]. }
      apply wr_ok in H3. destruct H3 as (q & Hq & E3). rewrite E2, Hf1 in Hq. injection Hq as <-.
      assert (F3 : find_id (n_peers m3) pid = Some (set_p_conf CStatic (set_p_conf CNew p))).
      { rewrite E3. cbn [n_peers set_n_peers]. rewrite E2. apply find_id_upd_same; [intros z; reflexivity | exact Hf1]. }
      assert (S123 : St fd n m3) by (eapply steps_trans; [exact S1 | eapply steps_trans; eassumption]).
      assert (L123 : loc pid n m3) by (eapply loc_trans; [exact L1 | eapply loc_trans; eassumption]).
      unfold when in H. destruct (negb (is_established (set_p_conf CNew p)) && (p_dir (set_p_conf CNew p) || negb d))%bool eqn:Er.
      + assert (S4 : St fd m3 n') by (eapply peer_reset_steps; [exact H | reflexivity]).
        split; [eapply steps_trans; eassumption|].
        split; [eapply loc_trans; [exact L123 | eapply loc_peer_reset; exact H]|].
        split; [exact (peer_reset_alive P ev _ _ _ _ H (inv0_steps _ _ _ _ _ S123 I))|].
        intros p0 p' Hp0 Hp' _ _. revert p' Hp'.
        assert (S5 : St (fr pid) m3 n') by (eapply peer_reset_steps; [exact H | apply N.eqb_refl]).
        apply (en_steps P ev (fr pid) m3 n' pid S5 eq_refl (inv0_steps _ _ _ _ _ S123 I)).
        intros q Hq. rewrite F3 in Hq. injection Hq as <-. reflexivity.
      + apply ret_ok in H. destruct H as [_ ->]. split; [exact S123|]. split; [exact L123|]. split.
        * intros q Hq. rewrite F3 in Hq. injection Hq as <-. split; [intros _|reflexivity]. unfold actp. cbn [p_state set_p_conf].
          destruct (is_established p) eqn:Est; [apply is_est_true in Est; congruence|].
          change (is_established (set_p_conf CNew p)) with (is_established p) in Er. rewrite Est in Er. cbn [negb andb p_dir set_p_conf] in Er.
          destruct (p_dir p) eqn:Edir; [discriminate|]. destruct d; [|discriminate]. exact (Hm eq_refl p Hf Edir (Ek eq_refl)).
        * intros p0 p' _ Hp' _ _. rewrite F3 in Hp'. injection Hp' as <-. reflexivity.
    - assert (S2 : St fd m n') by (eapply peer_reset_steps; [exact H | reflexivity]).
      split; [eapply steps_trans; eassumption|]. split; [eapply loc_trans; [exact L1 | eapply loc_peer_reset; exact H]|].
      split; [exact (peer_reset_alive P ev _ _ _ _ H I1)|].
      intros p0 p' Hp0 _ E1 E2'. rewrite Hf in Hp0. injection Hp0 as <-. specialize (Ek2 E1 E2'). discriminate. }
  destruct (p_conf p) eqn:Ec.
  - apply Hrest; [left; reflexivity | exact H].
  - split; [eapply peer_delete_steps; [exact H | reflexivity | left; reflexivity]|]. split; [eapply loc_peer_delete; exact H|].
    split; [intros q Hq; rewrite (peer_delete_gone _ _ _ _ _ H) in Hq; discriminate|].
    intros p0 p' _ Hp'. rewrite (peer_delete_gone _ _ _ _ _ H) in Hp'. discriminate.
  - apply Hrest; [right; reflexivity | exact H].
  - apply ret_ok in H. destruct H as [_ ->]. split; [apply steps_refl|]. split; [apply loc_refl|]. split.
    + intros q Hq. rewrite Hf in Hq. injection Hq as <-. split; [intros _ | intros _; unfold is_enabled; rewrite Ec; reflexivity].
      apply (Hd p Hf). apply is_dyn_true. exact Ec.
    + intros p0 p' Hp0 _ E. rewrite Hf in Hp0. injection Hp0 as <-. congruence.
Qed.

Lemma configure_list_to : forall d l x n n', each (configure_peer P d) l n = Ok (x, n') -> NoDup l -> inv0 P n ->
  (forall q p, In q l -> find_id (n_peers n) q = Some p -> is_dynamic p = true -> actp p) ->
  (d = true -> forall q p, In q l -> find_id (n_peers n) q = Some p -> p_dir p = false -> p_key p <> c_own P -> actp p) ->
  St fd n n' /\ kc n n' /\
  (forall q, In q l -> alive_at q n' /\
    (forall p p', find_id (n_peers n) q = Some p -> find_id (n_peers n') q = Some p' -> p_conf p = CNew -> p_key p <> c_own P -> is_enabled p' = true)) /\
  (forall q, ~ In q l -> find_id (n_peers n') q = find_id (n_peers n) q).
Proof.
  intros d l. induction l as [|q l IH]; intros x n n' H Hnd I Hd Hm; cbn [each] in H.
  - apply ret_ok in H. destruct H as [_ ->]. split; [apply steps_refl|]. split; [repeat split|]. split; [intros q Hq; destruct Hq | intros q _; reflexivity].
  - inversion Hnd as [|a b Hn Hnd' E]; subst. bind H as u m H1.
    apply configure_peer_to in H1; [|exact I | intros p; apply (Hd q p); left; reflexivity | intros Ed p; apply (Hm Ed q p); left; reflexivity].
    destruct H1 as (S1 & [O1 C1] & A1 & B1). pose proof (inv0_steps _ _ _ _ _ S1 I) as I1.
    assert (Ne : forall r, In r l -> r <> q) by (intros r Hr ->; contradiction).
    apply IH in H; [|exact Hnd' | exact I1 | |].
    + destruct H as (S2 & C2 & A2 & O2). split; [eapply steps_trans; eassumption|]. split; [eapply kc_trans; eassumption|]. split.
      * intros r [<- | Hr].
        -- split; [intros p Hp; rewrite (O2 q Hn) in Hp; exact (A1 p Hp)|]. intros p p' Hp Hp'. rewrite (O2 q Hn) in Hp'. exact (B1 p p' Hp Hp').
        -- destruct (A2 r Hr) as [X Y]. split; [exact X|]. intros p p' Hp. apply Y. rewrite (O1 r (Ne r Hr)). exact Hp.
      * intros r Hr. rewrite (O2 r) by (intros Hr2; apply Hr; right; exact Hr2). apply O1. intros ->. apply Hr. left. reflexivity.
    + intros r p Hr Hp. rewrite (O1 r (Ne r Hr)) in Hp. apply (Hd r p); [right; exact Hr | exact Hp].
    + intros Ed r p Hr Hp. rewrite (O1 r (Ne r Hr)) in Hp. apply (Hm Ed r p); [right; exact Hr | exact Hp].
Qed.

Lemma configure_peers_to : forall d x n n', configure_peers P d n = Ok (x, n') -> inv0 P n -> dyn_alive n -> (d = true -> main_alive n) ->
  To fd n n' /\ kc n n' /\
  (forall q p p', find_id (n_peers n) q = Some p -> find_id (n_peers n') q = Some p' -> p_conf p = CNew -> p_key p <> c_own P -> is_enabled p' = true) /\
  (forall q, find_id (n_peers n) q = None -> find_id (n_peers n') q = None).
Proof.
  intros d x n n' H I Hd Hm. unfold configure_peers in H. bind H as u m H1. apply modn_ok in H1. bind H as l m1 H2. apply gets_ok in H2. destruct H2 as [-> ->].
  assert (S1 : St fd n m) by (rewrite H1; apply steps_one; apply N_floating).
  pose proof (inv0_steps _ _ _ _ _ S1 I) as I1. assert (Hi := wf_ids _ (i_wf _ _ I1)).
  assert (Ep : n_peers m = n_peers n) by (rewrite H1; reflexivity).
  apply configure_list_to in H; [|apply NoDup_rev, sorted_nodup; exact (proj1 Hi) | exact I1 | intros q p _; rewrite Ep; apply Hd | intros Ed q p _; rewrite Ep; apply (Hm Ed)].
  destruct H as (S2 & C2 & A2 & O2).
  assert (Hin : forall q p, find_id (n_peers n) q = Some p -> In q (rev (map p_id (n_peers m)))).
  { intros q p Hp. rewrite <- in_rev. apply find_id_in in Hp. destruct Hp as [Hp <-]. rewrite Ep. apply in_map. exact Hp. }
  assert (Hgone : forall q, find_id (n_peers n) q = None -> find_id (n_peers n') q = None).
  { intros q Hq. rewrite O2; [rewrite Ep; exact Hq|]. rewrite <- in_rev. intros Hx. apply in_map_iff in Hx. destruct Hx as (p & Ei & Hp).
    apply (in_find m p Hi) in Hp. rewrite Ei, Ep in Hp. congruence. }
  assert (S : St fd n n') by (eapply steps_trans; eassumption).
  split; [apply to_fd; [exact S|]; constructor; [eapply inv0_steps; eassumption|]|].
  - intros q. destruct (find_id (n_peers n) q) as [p|] eqn:Ef; [apply A2; eapply Hin; exact Ef|].
    intros p Hp. rewrite (Hgone q Ef) in Hp. discriminate.
  - split; [rewrite H1 in C2; exact C2|]. split; [|exact Hgone].
    intros q p p' Hp. apply (proj2 (A2 q (Hin q p Hp))). rewrite Ep. exact Hp.
Qed.

(** adding peers *)
Lemma insert_new : forall c st id n n', insert_peer c st n = Ok (id, n') -> inv0 P n ->
  id = n_next_id n /\ n' = set_n_next_id (n_next_id n + 1)%N (set_n_peers (n_peers n ++ [new_peer id c st (k_serial (n_cur n))]) n) /\
  find_id (n_peers n') id = Some (new_peer id c st (k_serial (n_cur n))) /\ (forall q, q <> id -> find_id (n_peers n') q = find_id (n_peers n) q).
Proof.
  intros c st id n n' H I. unfold insert_peer in H. bind H as id2 m H1. apply gets_ok in H1. destruct H1 as [-> ->].
  bind H as u m H1. apply modn_ok in H1. apply ret_ok in H. destruct H as [<- ->].
  assert (Hnew : find_id (n_peers n) (n_next_id n) = None).
  { destruct (find_id (n_peers n) (n_next_id n)) as [p|] eqn:E; [|reflexivity]. apply found_below in E; [lia | apply (wf_ids _ (i_wf _ _ I))]. }
  split; [reflexivity|]. split; [exact H1|]. subst m. cbn [n_peers set_n_next_id set_n_peers]. split.
  - revert Hnew. generalize (n_peers n) as l. induction l as [|y l IH]; intros Hnew.
    + unfold find_id. cbn [app find p_id new_peer]. rewrite N.eqb_refl. reflexivity.
    + unfold find_id in *. cbn [app find] in *. destruct (N.eqb (p_id y) (n_next_id n)); [discriminate | exact (IH Hnew)].
  - intros q Hq. generalize (n_peers n) as l. induction l as [|y l IH].
    + unfold find_id. cbn [app find p_id new_peer]. destruct (N.eqb_spec (n_next_id n) q); [congruence | reflexivity].
    + unfold find_id in *. cbn [app find]. destruct (N.eqb (p_id y) q); [reflexivity | exact IH].
Qed.

Lemma peer_add_to : forall (R : peer -> Prop) c x n n', peer_add P c CNew n = Ok (x, n') -> inv0 P n ->
  (forall p k, R p -> p_conf p <> CDynamic -> k <> CDynamic -> R (set_p_conf k p)) ->
  (forall id s, R (new_peer id c CNew s)) ->
  (forall q p, find_id (n_peers n) q = Some p -> R p) ->
  St fd n n' /\ (forall q p, find_id (n_peers n') q = Some p -> R p).
Proof.
  intros R c x n n' H I Rc Rn HR. unfold peer_add in H. bind H as l m H1. apply gets_ok in H1. destruct H1 as [-> ->].
  assert (Hins : forall m id m', insert_peer c CNew m = Ok (id, m') -> inv0 P m -> find_peer_key (n_peers m) (pc_key c) = None ->
    (forall q p, find_id (n_peers m) q = Some p -> R p) -> St fd m m' /\ (forall q p, find_id (n_peers m') q = Some p -> R p)).
  { intros m id m' Hi Im Hk HRm. destruct (insert_new _ _ _ _ _ Hi Im) as (Eid & E & F1 & F2). split.
    - rewrite E, Eid. apply steps_one. apply N_insert; [exact Hk | left; split; reflexivity | reflexivity].
    - intros q p Hp. destruct (N.eq_dec q id) as [->|Ne]; [rewrite F1 in Hp; injection Hp as <-; apply Rn|].
      rewrite (F2 q Ne) in Hp. exact (HRm q p Hp). }
  destruct (find_peer_key (n_peers n) (pc_key c)) as [o|] eqn:Ek.
  - unfold find_peer_key in Ek. apply find_some in Ek. destruct Ek as [Hin Ekey]. apply bytes_eqb_true in Ekey.
    assert (Hf := in_find n o (wf_ids _ (i_wf _ _ I)) Hin).
    assert (Hwr : forall k y m', wr (p_id o) (set_p_conf k) n = Ok (y, m') -> p_conf o <> CDynamic -> k <> CDynamic ->
      St fd n m' /\ (forall q p, find_id (n_peers m') q = Some p -> R p)).
    { intros k y m' Hw Hc Hk. split.
      - eapply wr_steps; [exact Hw|]. intros q Hq. rewrite Hf in Hq. injection Hq as <-. apply ps_conf; [reflexivity | exact Hc | exact Hk].
      - intros q p Hp. pose proof (loc_wr _ _ _ _ _ Hw ltac:(intros z; reflexivity)) as [O _]. destruct (N.eq_dec q (p_id o)) as [->|Ne].
        + destruct (wr_found _ _ _ _ _ Hw ltac:(intros z; reflexivity) p Hp) as (p0 & Hp0 & ->). rewrite Hf in Hp0. injection Hp0 as <-.
          apply Rc; [exact (HR _ _ Hf) | exact Hc | exact Hk].
        + rewrite (O q Ne) in Hp. exact (HR q p Hp). }
    assert (Hdel : (peer_delete P (p_id o) ;; id <- insert_peer c CNew ;; ret (AddNew id)) n = Ok (x, n') ->
      St fd n n' /\ (forall q p, find_id (n_peers n') q = Some p -> R p)).
    { clear H. intros H. bind H as u m H1. bind H as id m1 H2. apply ret_ok in H. destruct H as [_ ->].
      assert (S1 : St fd n m) by (eapply peer_delete_steps; [exact H1 | reflexivity | left; reflexivity]). pose proof (inv0_steps _ _ _ _ _ S1 I) as I1.
      pose proof (loc_peer_delete _ _ _ _ H1) as [O1 _]. pose proof (peer_delete_gone _ _ _ _ _ H1) as G1.
      assert (HR1 : forall q p, find_id (n_peers m) q = Some p -> R p).
      { intros q p Hp. destruct (N.eq_dec q (p_id o)) as [->|Ne]; [congruence|]. rewrite (O1 q Ne) in Hp. exact (HR q p Hp). }
      assert (Hk : find_peer_key (n_peers m) (pc_key c) = None).
      { destruct (find_peer_key (n_peers m) (pc_key c)) as [z|] eqn:E; [|reflexivity]. exfalso. unfold find_peer_key in E. apply find_some in E.
        destruct E as [Hz Ez]. apply bytes_eqb_true in Ez. assert (Hzf := in_find m z (wf_ids _ (i_wf _ _ I1)) Hz).
        destruct (N.eq_dec (p_id z) (p_id o)) as [E|Ne]; [rewrite E in Hzf; congruence|].
        rewrite (O1 _ Ne) in Hzf. apply find_id_in in Hzf. destruct Hzf as [Hzn _].
        apply Ne. f_equal. eapply keys_inj; [exact (wf_key _ (i_wf _ _ I)) | exact Hzn | exact Hin | congruence]. }
      destruct (Hins _ _ _ H2 I1 Hk HR1) as [S2 HR2]. split; [eapply steps_trans; eassumption | exact HR2]. }
    destruct (p_conf o) eqn:Ec.
    + bind H as u m H1. apply ret_ok in H. destruct H as [_ ->]. eapply Hwr; [exact H1 | discriminate | discriminate].
    + destruct (configs_equal o c); [|apply Hdel; exact H]. bind H as u m H1. apply ret_ok in H. destruct H as [_ ->]. eapply Hwr; [exact H1 | discriminate | discriminate].
    + bind H as u m H1. apply ret_ok in H. destruct H as [_ ->]. eapply Hwr; [exact H1 | discriminate | discriminate].
    + apply Hdel; exact H.
  - bind H as id m H1. apply ret_ok in H. destruct H as [_ ->]. eapply Hins; eassumption.
Qed.

Lemma adds_to : forall (R : peer -> Prop) l x n n', each (fun c => peer_add P c CNew ;; ret tt) l n = Ok (x, n') -> inv0 P n ->
  (forall p k, R p -> p_conf p <> CDynamic -> k <> CDynamic -> R (set_p_conf k p)) ->
  (forall c id s, In c l -> R (new_peer id c CNew s)) ->
  (forall q p, find_id (n_peers n) q = Some p -> R p) ->
  St fd n n' /\ (forall q p, find_id (n_peers n') q = Some p -> R p).
Proof.
  intros R l. induction l as [|c l IH]; intros x n n' H I Rc Rn HR; cbn [each] in H.
  - apply ret_ok in H. destruct H as [_ ->]. split; [apply steps_refl | exact HR].
  - bind H as u m H1. bind H1 as a m1 H2. apply ret_ok in H1. destruct H1 as [_ ->].
    apply (peer_add_to R) in H2; [|exact I | exact Rc | intros id s; apply Rn; left; reflexivity | exact HR]. destruct H2 as [S1 HR1].
    apply IH in H; [|eapply inv0_steps; eassumption | exact Rc | intros c' id s Hc; apply Rn; right; exact Hc | exact HR1].
    destruct H as [S2 HR2]. split; [eapply steps_trans; eassumption | exact HR2].
Qed.

Lemma load_peer_dirs_to : forall d defs x n n', load_peer_dirs P d defs n = Ok (x, n') -> Inv n ->
  (forall c, In c defs -> pc_dir c = true) -> (d = true -> main_alive n) -> To fd n n'.
Proof.
  intros d defs x n n' H [I A] Hdir Hm. unfold load_peer_dirs in H. bind H as u m H1. apply modn_ok in H1.
  assert (S1 : St fd n m) by (rewrite H1; apply steps_one; apply N_pre_reload; reflexivity). pose proof (inv0_steps _ _ _ _ _ S1 I) as I1.
  pose (R := fun p : peer => (is_dynamic p = true -> actp p) /\ (d = true -> p_dir p = false -> p_key p <> c_own P -> actp p)).
  assert (HR : forall q p, find_id (n_peers m) q = Some p -> R p).
  { intros q p Hp. rewrite H1 in Hp. cbn [n_peers set_n_peers] in Hp.
    rewrite find_id_map in Hp by (intros y; destruct (pre_reload_const y) as (c & -> & _); reflexivity).
    destruct (find_id (n_peers n) q) as [p0|] eqn:Ef; [|discriminate]. injection Hp as <-. destruct (pre_reload_const p0) as (c & -> & Hc). split.
    - intros Hd. unfold actp. cbn [p_state set_p_conf]. apply (A q p0 Ef). unfold is_enabled. apply is_dyn_true in Hd. cbn in Hd. rewrite (proj2 Hc Hd). reflexivity.
    - intros Ed E1 E2. exact (Hm Ed q p0 Ef E1 E2). }
  bind H as u2 m2 H2. apply (adds_to R) in H2; [|exact I1 | | | exact HR].
  - destruct H2 as [S2 HR2]. apply configure_peers_to in H.
    + destruct H as [[[S3 _] I3] _]. apply to_fd; [|exact I3]. eapply steps_trans; [exact S1|]. eapply steps_trans; eassumption.
    + eapply inv0_steps; eassumption.
    + intros q p Hp. apply (HR2 q p Hp).
    + intros Ed q p Hp. apply (HR2 q p Hp). exact Ed.
  - intros p k [R1 R2] Hc Hk. split; [|exact R2]. intros Hd. apply is_dyn_true in Hd. cbn in Hd. congruence.
  - intros c id s Hc. split; [discriminate|]. intros _ E. cbn in E. rewrite (Hdir c Hc) in E. discriminate.
Qed.

Lemma reset_all_to : forall x n n', reset_all P n = Ok (x, n') -> Inv n -> To fa n n'.
Proof.
  intros x n n' H I. unfold reset_all in H. bind H as l m H1. apply gets_ok in H1. destruct H1 as [-> ->].
  eapply each_to; [exact H | exact I|]. intros pid y m m' Hm Im. cbv beta in Hm. bind Hm as p m1 H2. apply rd_ok in H2. destruct H2 as [Hfp ->].
  destruct (is_dynamic p) eqn:Ed; [apply peer_delete_to with (ev := ev) in Hm | apply peer_reset_to with (ev := ev) in Hm]; try exact Im;
    try (intros q Hq; rewrite Hfp in Hq; injection Hq as <-; exact Ed); (eapply to_mono; [apply fle_fr_fa | exact Hm]).
Qed.

(** ** Events *)
Definition fl_of (e : event) : flags :=
  match e with EvReload _ => fd | EvRecv _ _ _ _ => ff | EvTask pid => ft pid | EvVerified _ _ => fp all | _ => fc end.

Lemma recv_ff : forall sk la ra d x n n', ev = EvRecv sk la ra d -> receive P sk la ra d n = Ok (x, n') -> Inv n -> To ff n n'.
Proof.
  intros sk la ra d x n n' Eev Hr I. destruct (receive_to P ev _ _ _ _ _ _ _ Eev Hr I) as [T | (pid & p & pkt & y & T & _)].
  - apply tov_ff; [exact T | exact I].
  - eapply to_mono; [apply fle_fx_ff | exact T].
Qed.

Theorem handle_to : forall x n n', handle P ev n = Ok (x, n') -> Inv n -> To (fl_of ev) n n'.
Proof.
  intros x n n' H I.
  unfold handle in H. destruct ev as [sk la ra d|owner src dst|pid| |k addrs|k ok|defs|] eqn:Eev; cbn [fl_of]; rewrite <- Eev.
  - bind H as l m H1. apply gets_ok in H1. destruct H1 as [-> ->]. destruct sk as [s|o i].
    + eapply recv_ff; [exact Eev | exact H | exact I].
    + unfold when in H. destruct (sock_alive _ _); [eapply recv_ff; [exact Eev | exact H | exact I] | apply ret_ok in H; destruct H as [_ ->]; apply to_refl; exact I].
  - bind H as l m H1. apply gets_ok in H1. destruct H1 as [-> ->]. destruct owner as [o|].
    + destruct (find_id (n_peers n) o) as [p|]; [|apply ret_ok in H; destruct H as [_ ->]; apply to_refl; exact I].
      unfold when in H. destruct (p_iface p); [eapply to_mono; [apply fle_fa_fc | eapply send_data_to; [exact H | exact I]] | apply ret_ok in H; destruct H as [_ ->]; apply to_refl; exact I].
    + eapply to_mono; [apply fle_fa_fc | eapply send_data_to; [exact H | exact I]].
  - bind H as l m H1. apply gets_ok in H1. destruct H1 as [-> ->]. bind H as now m H1. apply gets_ok in H1. destruct H1 as [-> ->].
    destruct (find_id (n_peers n) pid) as [p|] eqn:Hf; [|apply ret_ok in H; destruct H as [_ ->]; apply to_refl; exact I].
    unfold when in H. destruct (otimed_out (n_now n) (p_task p)) eqn:Et; [|apply ret_ok in H; destruct H as [_ ->]; apply to_refl; exact I].
    eapply handle_task_to; [exact H | exact I|]. eapply act_enabled; [exact I|]. eapply used_act; [exact I | exact Hf|].
    right. right. right. right. intros E. rewrite E in Et. discriminate.
  - apply to_mono with fq; [apply fle_fq|]. eapply eth_cleanup_to; [exact H | exact I].
  - bind H as l m H1. apply gets_ok in H1. destruct H1 as [-> ->]. destruct (nth_error (n_resolving n) k) as [[pid i]|]; [|apply ret_ok in H; destruct H as [_ ->]; apply to_refl; exact I].
    bind H as u m H1. apply modn_ok in H1.
    assert (T1 : To fq n m).
    { apply to_quiet; [|exact I]. rewrite H1. apply steps_one. apply N_resolving. intros y Hy. left. unfold remove_nth in Hy.
      apply in_app_or in Hy. destruct Hy as [Hy|Hy]; [rewrite <- (firstn_skipn k (n_resolving n)); apply in_or_app; left; exact Hy|].
      rewrite <- (firstn_skipn (S k) (n_resolving n)). apply in_or_app. right. exact Hy. }
    apply resolve_return_to with (ev := ev) in H; [rewrite <- ?Eev in *; tchain | apply T1].
  - bind H as l m H1. apply gets_ok in H1. destruct H1 as [-> ->]. destruct (nth_error (n_verifying n) k) as [j|] eqn:Ej; [|apply ret_ok in H; destruct H as [_ ->]; apply to_refl; exact I].
    bind H as u m H1. apply modn_ok in H1.
    assert (T1 : To fq n m).
    { apply to_quiet; [|exact I]. rewrite H1. apply steps_one. apply N_verifying. intros y Hy. left. unfold remove_nth in Hy.
      apply in_app_or in Hy. destruct Hy as [Hy|Hy]; [rewrite <- (firstn_skipn k (n_verifying n)); apply in_or_app; left; exact Hy|].
      rewrite <- (firstn_skipn (S k) (n_verifying n)). apply in_or_app. right. exact Hy. }
    apply verify_return_to with (ev := ev) in H; [rewrite <- ?Eev in *; tchain | apply T1 | | exists k, ok; exact Eev]. rewrite Eev. split; [reflexivity|].
    rewrite H1. cbn [n_out set_n_verifying]. apply (proj1 (i_jobs _ _ (i_0 _ _ I))). eapply nth_error_In. exact Ej.
  - eapply load_peer_dirs_to; [exact H | exact I | | discriminate].
    intros c Hc. apply in_map_iff in Hc. destruct Hc as (c0 & <- & _). reflexivity.
  - eapply to_mono; [apply fle_fa_fc | eapply reset_all_to; [exact H | exact I]].
Qed.

(** ** Start *)
Lemma static_adds_to : forall l x n n',
  each (fun c => r <- peer_add P (mk_pconf (pc_key c) (pc_group c) false (pc_remotes c) (pc_floating c) (pc_ifname c) (pc_mtu c)) CNew ;;
                  match r with AddFailed => exit_fatal | _ => ret tt end) l n = Ok (x, n') -> inv0 P n ->
  (forall q p, find_id (n_peers n) q = Some p -> p_conf p = CNew) ->
  St fd n n' /\ (forall q p, find_id (n_peers n') q = Some p -> p_conf p = CNew).
Proof.
  induction l as [|c l IH]; intros x n n' H I HR; cbn [each] in H.
  - apply ret_ok in H. destruct H as [_ ->]. split; [apply steps_refl | exact HR].
  - bind H as u m H1. bind H1 as r m1 H2.
    assert (A : St fd n m /\ (forall q p, find_id (n_peers m) q = Some p -> p_conf p = CNew)).
    { assert (Em : m = m1 /\ r <> AddFailed) by (destruct r; try discriminate; apply ret_ok in H1; split; [exact (proj2 H1) | discriminate | exact (proj2 H1) | discriminate]).
      clear H1. destruct Em as [-> Hr]. unfold peer_add in H2. bind H2 as ps m2 H3. apply gets_ok in H3. destruct H3 as [-> ->]. cbn [pc_key] in H2.
      destruct (find_peer_key (n_peers n) (pc_key c)) as [o|] eqn:Ek.
      - exfalso. unfold find_peer_key in Ek. apply find_some in Ek. destruct Ek as [Hin _]. assert (Hf := in_find n o (wf_ids _ (i_wf _ _ I)) Hin).
        rewrite (HR _ _ Hf) in H2. bind H2 as u2 m2 H3. apply ret_ok in H2. apply Hr. symmetry. exact (proj1 H2).
      - bind H2 as id m2 H3. apply ret_ok in H2. destruct H2 as [_ ->]. destruct (insert_new _ _ _ _ _ H3 I) as (Eid & E & F1 & F2). split.
        + rewrite E, Eid. apply steps_one. apply N_insert; [exact Ek | left; split; reflexivity | reflexivity].
        + intros q p Hp. destruct (N.eq_dec q id) as [->|Ne]; [rewrite F1 in Hp; injection Hp as <-; reflexivity|].
          rewrite (F2 q Ne) in Hp. exact (HR q p Hp). }
    destruct A as [S1 HR1]. apply IH in H; [|eapply inv0_steps; eassumption | exact HR1].
    destruct H as [S2 HR2]. split; [eapply steps_trans; eassumption | exact HR2].
Qed.

Lemma start_to : forall static dirs x n n', start P static dirs n = Ok (x, n') -> inv0 P n -> n_peers n = [] -> To fd n n'.
Proof.
  intros static dirs x n n' H I Hnil. unfold start in H. bind H as u m H1. apply static_adds_to in H1; [|exact I | intros q p Hp; rewrite Hnil in Hp; discriminate].
  destruct H1 as [S1 HR1]. pose proof (inv0_steps _ _ _ _ _ S1 I) as I1.
  bind H as u2 m2 H2. apply configure_peers_to in H2; [|exact I1 | | discriminate].
  - destruct H2 as (T2 & _ & B2 & G2). apply load_peer_dirs_to in H; [|apply T2 | |].
    + destruct H as [[S3 _] I3]. apply to_fd; [|exact I3]. eapply steps_trans; [exact S1|]. eapply steps_trans; [apply T2 | exact S3].
    + intros c Hc. apply in_map_iff in Hc. destruct Hc as (c0 & <- & _). reflexivity.
    + intros _ q p Hp _ Hk. apply (i_alive _ _ (proj2 T2) q p Hp). destruct (find_id (n_peers m) q) as [p0|] eqn:Ef; [|rewrite (G2 q Ef) in Hp; discriminate].
      apply (B2 q p0 p Ef Hp); [exact (HR1 q p0 Ef)|]. destruct (fix_steps _ _ _ _ _ _ _ _ (to_steps _ _ _ _ _ T2) I1 Ef Hp) as (E & _). congruence.
  - intros q p Hp Hd. apply is_dyn_true in Hd. rewrite (HR1 q p Hp) in Hd. discriminate.
Qed.

Lemma empty_inv : forall now orc, inv0 P (empty_node now orc).
Proof.
  intros now orc. constructor.
  - constructor; [split; constructor | intros p q a Hp; destruct Hp | apply NoDup_nil].
  - intros p Hp. destruct Hp.
  - split; intros y Hy; destruct Hy.
  - intros e q He. destruct He.
  - intros t o q Hin. destruct Hin.
Qed.
Lemma inv_tick : forall t n, Inv n -> Inv (set_n_now t n).
Proof.
  intros t n [[W Pi J E Hh] A]. constructor; [constructor|].
  - destruct W as [W1 W2 W3]. constructor; assumption.
  - exact Pi.
  - exact J.
  - exact E.
  - exact Hh.
  - exact A.
Qed.
End Fun.

(** ** Executions: a property of nodes that holds at the beginning, and is kept
    by the passing of time and by every step of an event, always holds *)
Lemma reach_inv : forall P orc now static dirs evs n, execute P now orc static dirs evs = Ok n -> inv P n.
Proof.
  intros P orc now static dirs evs n H. unfold execute in H.
  destruct ((start P static dirs;; run P evs) (empty_node (Z.of_N now) orc)) as [[x n1]| | |] eqn:E; try discriminate. injection H as <-.
  bind E as u m H1. apply (start_to P EvMaintenance) in H1; [|apply empty_inv | reflexivity]. destruct H1 as [_ I].
  unfold run in E. revert x m n1 I E. induction evs as [|e evs IH]; intros x m n1 I E; cbn [each] in E.
  - apply ret_ok in E. destruct E as [_ ->]. exact I.
  - bind E as u2 m2 H2. apply (IH _ _ _) with (2 := E). unfold step in H2. bind H2 as u3 m3 H3. apply modn_ok in H3.
    apply handle_to in H2; [apply H2|]. rewrite H3. apply inv_tick. exact I.
Qed.

Lemma reach_ind : forall P (J : node -> Prop),
  (forall now orc, J (empty_node (Z.of_N now) orc)) ->
  (forall t n, inv P n -> 0 <= t -> J n -> J (set_n_now (n_now n + t) n)) ->
  (forall ev fl n n', nstep P ev fl n n' -> inv0 P n -> J n -> J n') ->
  forall orc now static dirs evs n, execute P now orc static dirs evs = Ok n -> J n.
Proof.
  intros P J J0 Jt Js orc now static dirs evs n H. unfold execute in H.
  assert (Jss : forall ev fl n n', steps P ev fl n n' -> inv0 P n -> J n -> J n').
  { intros ev fl m m' S. induction S as [|m m1 m2 Hs S IH]; intros I Hj; [exact Hj|]. apply IH; [eapply inv0_nstep; eassumption | eapply Js; eassumption]. }
  destruct ((start P static dirs;; run P evs) (empty_node (Z.of_N now) orc)) as [[x n1]| | |] eqn:E; try discriminate. injection H as <-.
  bind E as u m H1. apply (start_to P EvMaintenance) in H1; [|apply empty_inv | reflexivity]. destruct H1 as [[S _] I].
  assert (Hj : J m) by (eapply Jss; [exact S | apply empty_inv | apply J0]). clear S u.
  unfold run in E. revert x m n1 I Hj E. induction evs as [|e evs IH]; intros x m n1 I Hj E; cbn [each] in E.
  - apply ret_ok in E. destruct E as [_ ->]. exact Hj.
  - bind E as u2 m2 H2. unfold step in H2. bind H2 as u3 m3 H3. apply modn_ok in H3.
    assert (I3 : inv P m3) by (rewrite H3; apply inv_tick; exact I).
    assert (J3 : J m3) by (rewrite H3; apply Jt; [exact I | lia | exact Hj]).
    apply handle_to in H2; [|exact I3]. destruct H2 as [[S2 _] I2]. apply (IH x m2 n1 I2); [|exact E]. eapply Jss; [exact S2 | apply I3 | exact J3].
Qed.
